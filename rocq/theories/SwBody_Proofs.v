(** Proofs about the body of .SWITCH: labels lead to the right lines. *)
From Coq Require Import ZArith List Bool Lia.
From Verif Require Import Base Switch_Model Switch_Spec.
Import ListNotations.
Open Scope Z_scope.

(** ** Jumps into the body *)

Lemma from_app_some : forall l a b t, from l a = Some t -> from l (a ++ b) = Some (t ++ b).
Proof.
  induction a as [|x a IH]; intros b t H; cbn in *; [discriminate|].
  destruct x; cbn in *; auto.
  destruct (n =? l); [congruence|auto].
Qed.

Lemma from_app_none : forall l a b, from l a = None -> from l (a ++ b) = from l b.
Proof.
  induction a as [|x a IH]; intros b H; cbn in *; [reflexivity|].
  destruct x; cbn in *; auto.
  destruct (n =? l); [congruence|auto].
Qed.

Definition below (k : Z) (b : list bline) : Prop :=
  forall n, In (BLabel n) b -> n <= k.

Lemma from_below : forall k l b, below k b -> k < l -> from l b = None.
Proof.
  induction b as [|x b IH]; intros B H; cbn; [reflexivity|].
  assert (B' : below k b) by (intros n N; apply B; right; exact N).
  destruct x; auto.
  destruct (Z.eqb_spec n l) as [->|_]; [|auto].
  specialize (B l (or_introl eq_refl)). lia.
Qed.

Lemma below_app : forall k a b, below k a -> below k b -> below k (a ++ b).
Proof. intros k a b A B n N. apply in_app_iff in N as [N|N]; auto. Qed.

Lemma below_mono : forall k j b, below k b -> k <= j -> below j b.
Proof. intros k j b B H n N. specialize (B n N). lia. Qed.

Lemma below_one : forall k x, (forall n, x = BLabel n -> n <= k) -> below k [x].
Proof. intros k x H n [N|[]]. auto. Qed.

(** Lines that are labels only do nothing. *)
Definition quiet (b : list bline) : Prop := Forall (fun x => exists n, x = BLabel n) b.

Lemma body_quiet : forall cond a b, quiet a -> body cond (a ++ b) = body cond b.
Proof.
  intros cond a b Q; induction Q as [|x a [n ->] _ IH]; cbn; auto.
Qed.

(** ** One value *)

Lemma case_values_eq : forall c8 vs s s', case_values c8 s vs = Ok s' -> vs <> [] ->
  b_cnt s' = b_cnt (new_label s) /\ b_brk s' = false /\
  b_saved s' = b_saved (new_label s) /\ b_multi s' = b_multi s /\
  b_def s' = b_def s /\ b_out s' = b_out (new_label s) /\
  b_cases s' = b_cases s ++ map (fun v => (case_value c8 v, b_saved (new_label s))) vs /\
  (NoDup (map fst (b_cases s)) -> NoDup (map fst (b_cases s'))).
Proof.
  assert (NB : forall s, b_brk (new_label s) = false)
    by (intro s; unfold new_label; destruct (b_brk s) eqn:E; cbn; auto).
  assert (NM : forall s, b_multi (new_label s) = b_multi s /\ b_def (new_label s) = b_def s
            /\ b_cases (new_label s) = b_cases s)
    by (intro s; unfold new_label; destruct (b_brk s); cbn; auto).
  assert (ID : forall s, b_brk s = false -> new_label s = s)
    by (intros s E; unfold new_label; rewrite E; reflexivity).
  assert (ND : forall (l : list Z) x, NoDup l -> ~ In x l -> NoDup (l ++ [x])).
  { intros l x N I. induction N as [|y l Y N IH]; cbn.
    - constructor; [intros []|constructor].
    - constructor.
      + rewrite in_app_iff. intros [H|[H|[]]]; [auto|]. apply I. left. auto.
      + apply IH. intro H. apply I. right. auto. }
  induction vs as [|v vs IH]; intros s s' H N; [congruence|]. clear N.
  cbn [case_values] in H. unfold one_case in H.
  destruct (existsb (fun c => fst c =? case_value c8 v) (b_cases (new_label s))) eqn:X; [discriminate|].
  destruct (NM s) as (M1 & M2 & M3).
  match type of H with case_values _ ?t _ = _ => set (t1 := t) in H end.
  assert (T : b_brk t1 = false) by (cbn; apply NB).
  assert (N1 : NoDup (map fst (b_cases s)) -> NoDup (map fst (b_cases t1))).
  { intro D. cbn. rewrite map_app. cbn. apply ND; [rewrite M3; exact D|].
    intro I. apply in_map_iff in I as (c & C1 & C2).
    assert (true = false); [|discriminate]. rewrite <- X. symmetry. apply existsb_exists.
    exists c. split; [exact C2|]. apply Z.eqb_eq. exact C1. }
  destruct vs as [|v2 vs].
  - cbn in H. assert (t1 = s') as <- by congruence. cbn. rewrite M1, M2, M3.
    repeat split; auto. intro D. specialize (N1 D). cbn in N1. rewrite M3 in N1. exact N1.
  - destruct (IH t1 s' H) as (A1 & A2 & A3 & A4 & A5 & A6 & A7 & A8); [discriminate|].
    rewrite (ID t1 T) in *.
    rewrite A1, A2, A3, A4, A5, A6, A7.
    assert (EC : b_cases t1 = b_cases s ++ [(case_value c8 v, b_saved (new_label s))])
      by (cbn; rewrite M3; reflexivity).
    rewrite EC.
    repeat split; auto.
    + rewrite <- app_assoc. reflexivity.
    + intro D. specialize (A8 (N1 D)). rewrite A7, EC in A8. exact A8.
Qed.

Lemma swrap_eq_mod : forall n x v, 0 < n -> - 2 ^ (n - 1) <= v < 2 ^ (n - 1) ->
  (swrap n x = v <-> (x - v) mod 2 ^ n = 0).
Proof.
  intros n x v N V.
  assert (P : 2 ^ n = 2 * 2 ^ (n - 1)) by (rewrite <- Z.pow_succ_r by lia; f_equal; lia).
  assert (Q : 0 < 2 ^ (n - 1)) by (apply Z.pow_pos_nonneg; lia).
  split; intro H.
  - rewrite <- H. rewrite Zminus_mod, swrap_mod by lia. rewrite Zminus_diag. apply Z.mod_0_l. lia.
  - assert (E : x mod 2 ^ n = v mod 2 ^ n).
    { apply Z.mod_divide in H as [k K]; [|lia].
      replace x with (v + k * 2 ^ n) by lia. apply Z.mod_add. lia. }
    rewrite <- (swrap_small n v) by lia.
    unfold swrap. rewrite (Zplus_mod x), (Zplus_mod v), E. reflexivity.
Qed.

Definition signed (c8 : bool) (v : Z) : Prop := - 2 ^ (bits c8 - 1) <= v < 2 ^ (bits c8 - 1).

Lemma case_value_has : forall c8 v vs, signed c8 v ->
  (In v (map (case_value c8) vs) <-> has c8 v vs = true).
Proof.
  intros c8 v vs V. unfold has. rewrite existsb_exists, in_map_iff.
  assert (E : forall x, case_value c8 x = v <-> (x - v) mod 2 ^ bits c8 = 0).
  { intro x. destruct c8; cbn [case_value bits] in *; apply swrap_eq_mod; (lia || exact V). }
  split.
  - intros (x & X & I). exists x. split; [exact I|]. apply Z.eqb_eq, E, X.
  - intros (x & I & X). exists x. split; [|exact I]. apply E, Z.eqb_eq, X.
Qed.

(** ** Facts about one line *)

Lemma one_item_out : forall asm c8 s i next s', one_item asm c8 s i next = Ok s' ->
  exists o, b_out s' = b_out s ++ o.
Proof.
  intros asm c8 s i next s' H.
  assert (NL : forall t, exists o, b_out (new_label t) = b_out t ++ o).
  { intro t. unfold new_label. destruct (b_brk t); cbn; [eauto|exists []; rewrite app_nil_r; auto]. }
  assert (AC : exists o, b_out (asm_case next s) = b_out s ++ o).
  { unfold asm_case. destruct next, (b_multi s =? 0), (1 <=? b_multi s); cbn; eauto;
      exists []; rewrite app_nil_r; auto. }
  destruct i as [vs| | |id|id k]; cbn [one_item] in H.
  - destruct vs as [|v vs]; [discriminate|].
    apply case_values_eq in H; [|discriminate]. destruct H as (_ & _ & _ & _ & _ & H & _).
    rewrite H. destruct (NL (if asm then asm_case next s else s)) as [o O].
    rewrite O. destruct asm; [|eauto].
    destruct AC as [q Q]. rewrite Q, <- app_assoc. eauto.
  - unfold default in H. destruct (b_def s); [discriminate|].
    assert (b_out s' = b_out s ++ (if asm && negb match b_cases s with [] => true | _ => false end
       then [BExit] else []) ++ [BLabel (b_cnt s + 1)]) by (injection H as <-; reflexivity). eauto.
  - injection H as <-. cbn. eauto.
  - injection H as <-. cbn. eauto.
  - injection H as <-. cbn. eauto.
Qed.

Lemma items_out : forall asm c8 l s s', items asm c8 s l = Ok s' -> exists o, b_out s' = b_out s ++ o.
Proof.
  induction l as [|i l IH]; intros s s' H; cbn [items] in H.
  - injection H as <-. exists []. rewrite app_nil_r. reflexivity.
  - destruct (one_item asm c8 s i _) as [s1| |] eqn:E; try discriminate.
    apply one_item_out in E as [o O]. apply IH in H as [q Q].
    rewrite Q, O, <- app_assoc. eauto.
Qed.

Lemma one_item_cases : forall asm c8 s i next s', one_item asm c8 s i next = Ok s' ->
  exists o, b_cases s' = b_cases s ++ o.
Proof.
  intros asm c8 s i next s' H.
  destruct i as [vs| | |id|id k]; cbn [one_item] in H.
  - destruct vs as [|v vs]; [discriminate|].
    apply case_values_eq in H; [|discriminate]. destruct H as (_ & _ & _ & _ & _ & _ & H & _).
    rewrite H.
    assert (E : b_cases (if asm then asm_case next s else s) = b_cases s).
    { destruct asm; [|reflexivity]. unfold asm_case.
      destruct next, (b_multi s =? 0), (1 <=? b_multi s); reflexivity. }
    rewrite E. eauto.
  - unfold default in H. destruct (b_def s); [discriminate|].
    injection H as <-. exists []. rewrite app_nil_r. reflexivity.
  - injection H as <-. exists []. rewrite app_nil_r. reflexivity.
  - injection H as <-. exists []. rewrite app_nil_r. reflexivity.
  - injection H as <-. exists []. rewrite app_nil_r. reflexivity.
Qed.

Lemma items_cases : forall asm c8 l s s', items asm c8 s l = Ok s' ->
  exists o, b_cases s' = b_cases s ++ o.
Proof.
  induction l as [|i l IH]; intros s s' H; cbn [items] in H.
  - injection H as <-. exists []. rewrite app_nil_r. reflexivity.
  - destruct (one_item asm c8 s i _) as [s1| |] eqn:E; try discriminate.
    apply one_item_cases in E as [o O]. apply IH in H as [q Q].
    rewrite Q, O, <- app_assoc. eauto.
Qed.

(** Every block uses up a number of labels that is not negative. *)
(** What holds after every line. *)
Record inv (s : bst) : Prop := {
  i_below : below (b_cnt s) (b_out s);
  i_cnt : 0 <= b_cnt s;
  i_saved : b_brk s = false -> b_cnt s < 65536 -> 0 < b_saved s;
  i_dup : NoDup (map fst (b_cases s));
  i_def : forall d, b_def s = Some d -> d <= b_cnt s
}.

Lemma inv_new_label : forall s, inv s -> inv (new_label s) /\ b_cnt s <= b_cnt (new_label s).
Proof.
  intros s [A B C D E]. unfold new_label.
  destruct (b_brk s) eqn:K; [|split; [constructor; auto|lia]].
  cbn [b_cnt]. split; [|lia]. constructor; cbn [b_cnt b_out b_brk b_saved b_cases b_def].
  - apply below_app; [apply (below_mono (b_cnt s)); [exact A|lia]|].
    apply below_one. intros n N. injection N as <-. lia.
  - lia.
  - intros _ H. rewrite Z.mod_small by lia. lia.
  - exact D.
  - intros d H. specialize (E d H). lia.
Qed.

Definition multi_ok (s : bst) : Prop := b_multi s <> 0 -> b_cnt s < 65536 -> 0 < b_saved s.

Lemma inv_asm_case : forall next s, inv s -> multi_ok s ->
  inv (asm_case next s) /\ b_cnt (asm_case next s) = b_cnt s.
Proof.
  intros next s [A B C D E] M.
  assert (Bx : below (b_cnt s) (b_out s ++ [BExit])).
  { apply below_app; [exact A|]. apply below_one. intros n N. discriminate. }
  unfold asm_case.
  destruct next, (Z.eqb_spec (b_multi s) 0), (1 <=? b_multi s); cbn; (split; [|reflexivity]);
    constructor; cbn; auto; try discriminate.
Qed.

Lemma inv_one : forall asm c8 s i next s', one_item asm c8 s i next = Ok s' ->
  inv s -> multi_ok s -> counts [i] -> inv s' /\ multi_ok s' /\ b_cnt s <= b_cnt s'.
Proof.
  intros asm c8 s i next s' H IV MO CT.
  destruct i as [vs| | |id|id k]; cbn [one_item] in H.
  - destruct vs as [|v vs]; [discriminate|].
    set (t := if asm then asm_case next s else s) in H.
    assert (T : inv t /\ b_cnt t = b_cnt s).
    { unfold t. destruct asm; [apply inv_asm_case; assumption|split; [assumption|reflexivity]]. }
    destruct T as [T TC]. clearbody t.
    apply case_values_eq in H; [|discriminate].
    destruct H as (H1 & H2 & H3 & H4 & H5 & H6 & H7 & H8).
    destruct (inv_new_label t T) as [[A B C D E] L].
    assert (BN : b_brk (new_label t) = false)
      by (unfold new_label; destruct (b_brk t) eqn:K; [reflexivity|exact K]).
    assert (IS : inv s').
    { constructor.
      - rewrite H1, H6. exact A.
      - rewrite H1. exact B.
      - intros _ K. rewrite H3. apply C; [exact BN|]. rewrite <- H1. exact K.
      - apply H8. exact (i_dup t T).
      - intros d K. rewrite H5 in K. rewrite H1. pose proof (i_def t T d K). lia. }
    split; [exact IS|]. split; [|rewrite H1; lia].
    intros _ K. apply (i_saved s' IS); [exact H2|exact K].
  - unfold default in H. destruct (b_def s) eqn:DF; [discriminate|].
    set (lv := asm && _) in H.
    assert (Eq : s' = {| b_cnt := b_cnt s + 1; b_brk := b_brk s || lv; b_saved := b_saved s;
            b_multi := b_multi s; b_cases := b_cases s; b_def := Some (b_cnt s + 1);
            b_out := b_out s ++ (if lv then [BExit] else []) ++ [BLabel (b_cnt s + 1)] |})
      by (injection H as <-; reflexivity).
    clearbody lv. subst s'. destruct IV as [A B C D E]. cbn [b_cnt]. split; [|split; [|lia]].
    + constructor; cbn [b_cnt b_out b_brk b_saved b_cases b_def].
      * apply below_app; [apply (below_mono (b_cnt s)); [exact A|lia]|].
        apply below_app; [destruct lv; [apply below_one; discriminate|intros n []]|].
        apply below_one. intros n N. injection N as <-. lia.
      * lia.
      * intros K L. apply C; [|lia]. destruct (b_brk s); [discriminate|reflexivity].
      * exact D.
      * intros d K. injection K as <-. lia.
    + intros K L. cbn in *. apply MO; [exact K|lia].
  - injection H as <-. destruct IV as [A B C D E]. cbn [b_cnt]. split; [|split; [exact MO|lia]].
    constructor; cbn; auto; try discriminate.
    apply below_app; [exact A|apply below_one; discriminate].
  - injection H as <-. destruct IV as [A B C D E]. cbn [b_cnt]. split; [|split; [exact MO|lia]].
    constructor; cbn; auto; try discriminate.
    apply below_app; [exact A|apply below_one; discriminate].
  - injection H as <-. apply Forall_cons_iff in CT as [CT _]. cbn in CT.
    destruct IV as [A B C D E]. cbn [b_cnt]. split; [|split; [|lia]].
    + constructor; cbn [b_cnt b_out b_brk b_saved b_cases b_def].
      * apply below_app; [|apply below_one; discriminate].
        apply (below_mono (b_cnt s)); [exact A|lia].
      * lia.
      * intros K L. apply C; [exact K|lia].
      * exact D.
      * intros d K. specialize (E d K). lia.
    + intros K L. cbn in *. apply MO; [exact K|lia].
Qed.

Lemma inv_items : forall asm c8 l s s', items asm c8 s l = Ok s' ->
  inv s -> multi_ok s -> counts l -> inv s' /\ multi_ok s' /\ b_cnt s <= b_cnt s'.
Proof.
  induction l as [|i l IH]; intros s s' H IV MO CT; cbn [items] in H.
  - injection H as <-. split; [exact IV|]. split; [exact MO|lia].
  - destruct (one_item asm c8 s i _) as [s1| |] eqn:E; try discriminate.
    apply Forall_cons_iff in CT as [C1 C2].
    destruct (inv_one _ _ _ _ _ _ E IV MO) as (I1 & M1 & L1).
    { constructor; [exact C1|constructor]. }
    destruct (IH _ _ H I1 M1 C2) as (I2 & M2 & L2).
    split; [exact I2|]. split; [exact M2|lia].
Qed.

Lemma inv_start : forall cnt, 0 <= cnt -> inv (start cnt) /\ multi_ok (start cnt).
Proof.
  intros cnt H. split.
  - constructor; cbn; try discriminate; try lia.
    + intros n [].
    + constructor.
  - intros K. cbn in K. congruence.
Qed.

(** ** The labels of the cases have numbers from 1 to 0FFFFh *)

Lemma items_labels : forall asm c8 l s s', items asm c8 s l = Ok s' ->
  inv s -> multi_ok s -> counts l -> b_cnt s' < 65536 ->
  Forall (fun c => 0 < snd c <= b_cnt s) (b_cases s) ->
  (b_saved s <= b_cnt s) ->
  Forall (fun c => 0 < snd c <= b_cnt s') (b_cases s').
Proof.
  induction l as [|i l IH]; intros s s' H IV MO CT LT F SV; cbn [items] in H.
  - injection H as <-. exact F.
  - destruct (one_item asm c8 s i _) as [s1| |] eqn:E; try discriminate.
    apply Forall_cons_iff in CT as [C1 C2].
    destruct (inv_one _ _ _ _ _ _ E IV MO) as (I1 & M1 & L1).
    { constructor; [exact C1|constructor]. }
    destruct (inv_items _ _ _ _ _ H I1 M1 C2) as (_ & _ & L2).
    assert (MONO : forall k, b_cnt s <= k -> Forall (fun c => 0 < snd c <= k) (b_cases s)).
    { intros k K. apply (Forall_impl _ (fun c P => conj (proj1 P) (Z.le_trans _ _ _ (proj2 P) K))). exact F. }
    apply (IH s1 s' H I1 M1 C2 LT).
    + destruct i as [vs| | |id|id k]; cbn [one_item] in E.
      * destruct vs as [|v vs]; [discriminate|].
        set (t := if asm then asm_case _ s else s) in E.
        assert (T : inv t /\ b_cnt t = b_cnt s /\ b_cases t = b_cases s /\ b_saved t = b_saved s).
        { unfold t. destruct asm; [|auto].
          destruct (inv_asm_case (match l with [] => false | j :: _ => is_case j end) s IV MO) as [A B].
          split; [exact A|]. split; [exact B|]. unfold asm_case.
          destruct (match l with [] => false | j :: _ => is_case j end), (b_multi s =? 0), (1 <=? b_multi s);
            split; reflexivity. }
        destruct T as (T & TC & TS & TV). clearbody t.
        apply case_values_eq in E; [|discriminate].
        destruct E as (H1 & H2 & H3 & _ & _ & _ & H7 & _).
        rewrite H7, TS. apply Forall_app. split; [apply MONO; lia|].
        apply Forall_forall. intros c IN. apply in_map_iff in IN as (x & <- & _). cbn [snd].
        rewrite <- H3. split.
        -- apply (i_saved s1 I1); [exact H2|lia].
        -- rewrite H3, H1. unfold new_label. destruct (b_brk t) eqn:K; cbn; [|lia].
           pose proof (i_cnt t T).
           rewrite Z.mod_small; [lia|]. rewrite H1 in L2. unfold new_label in L2.
           rewrite K in L2. cbn in L2. lia.
      * unfold default in E. destruct (b_def s); [discriminate|].
        injection E as <-. cbn. apply MONO. lia.
      * injection E as <-. exact F.
      * injection E as <-. exact F.
      * injection E as <-. cbn in *. apply MONO. lia.
    + destruct i as [vs| | |id|id k]; cbn [one_item] in E.
      * destruct vs as [|v vs]; [discriminate|].
        apply case_values_eq in E; [|discriminate].
        destruct E as (H1 & H2 & H3 & _). rewrite H1, H3.
        set (t := if asm then asm_case _ s else s) in *.
        assert (T : inv t /\ b_cnt t = b_cnt s /\ b_saved t = b_saved s).
        { unfold t. destruct asm; [|auto].
          destruct (inv_asm_case (match l with [] => false | j :: _ => is_case j end) s IV MO) as [A B].
          split; [exact A|]. split; [exact B|]. unfold asm_case.
          destruct (match l with [] => false | j :: _ => is_case j end), (b_multi s =? 0), (1 <=? b_multi s);
            reflexivity. }
        destruct T as (T & TC & TV). clearbody t. unfold new_label.
        destruct (b_brk t) eqn:K; cbn; [|lia]. pose proof (i_cnt t T).
        rewrite H1 in L2. unfold new_label in L2. rewrite K in L2. cbn in L2.
        rewrite Z.mod_small; lia.
      * unfold default in E. destruct (b_def s); [discriminate|].
        injection E as <-. cbn. lia.
      * injection E as <-. cbn. lia.
      * injection E as <-. cbn. lia.
      * injection E as <-. cbn in *. lia.
Qed.

(** ** The style of C *)

(** The lines written for a list of items, without labels. *)
Fixpoint c_lines (l : list item) : list bline :=
  match l with
  | [] => []
  | ICode id _ :: r => BCode id :: c_lines r
  | IBreak :: r => BExit :: c_lines r
  | IBreakIf id :: r => BExitIf id :: c_lines r
  | _ :: r => c_lines r
  end.

Lemma body_c : forall cond l s s' t, items false (t : bool) s l = Ok s' ->
  forall o f, b_out s' = b_out s ++ o -> body cond (o ++ f) = body cond (c_lines l ++ f).
Proof.
  intros cond l. induction l as [|i l IH]; intros s s' c8 H o f O; cbn [items] in H.
  - injection H as <-. assert (o = []) as ->; [|reflexivity].
    apply (app_inv_head (b_out s)). rewrite app_nil_r. auto.
  - destruct (one_item false c8 s i _) as [s1| |] eqn:E; try discriminate.
    destruct (items_out _ _ _ _ _ H) as [q Q].
    specialize (IH _ _ _ H q f Q).
    assert (P : exists p, b_out s1 = b_out s ++ p /\
              body cond (p ++ q ++ f) = body cond (c_lines [i] ++ c_lines l ++ f)).
    { destruct i as [vs| | |id|id k]; cbn [one_item] in E.
      - destruct vs as [|v vs]; [discriminate|].
        apply case_values_eq in E; [|discriminate].
        destruct E as (_ & _ & _ & _ & _ & E & _). rewrite E. unfold new_label.
        destruct (b_brk s); cbn [b_out].
        + exists [BLabel (b_cnt s + 1)]. split; [reflexivity|exact IH].
        + exists []. split; [rewrite app_nil_r; reflexivity|exact IH].
      - unfold default in E. destruct (b_def s); [discriminate|]. cbn [andb negb] in E.
        injection E as <-. cbn [b_out]. eexists. split; [reflexivity|]. cbn. exact IH.
      - injection E as <-. cbn [b_out]. eexists. split; [reflexivity|]. reflexivity.
      - injection E as <-. cbn [b_out]. eexists. split; [reflexivity|]. cbn. rewrite IH. reflexivity.
      - injection E as <-. cbn [b_out]. eexists. split; [reflexivity|]. cbn. rewrite IH. reflexivity. }
    destruct P as (p & P1 & P2).
    assert (o = p ++ q) as ->.
    { apply (app_inv_head (b_out s)). rewrite <- O, Q, P1, app_assoc. reflexivity. }
    rewrite <- app_assoc, P2. destruct i; reflexivity.
Qed.

(** The label used by the next .CASE, if it does not get a new one, leads to
    the end of what is written. *)
Definition label_ok (dirty : bool) (s : bst) : Prop :=
  b_brk s = false -> dirty = false ->
  exists t, from (b_saved s) (b_out s) = Some t /\ quiet t.

Lemma new_label_ok : forall s, inv s -> b_cnt (new_label s) < 65536 ->
  (b_brk s = false -> exists t, from (b_saved s) (b_out s) = Some t /\ quiet t) ->
  exists t, from (b_saved (new_label s)) (b_out (new_label s)) = Some t /\ quiet t.
Proof.
  intros s IV LT H. unfold new_label in *. destruct (b_brk s) eqn:K; cbn [b_saved b_out b_cnt] in *.
  - pose proof (i_cnt s IV). rewrite Z.mod_small by lia.
    rewrite from_app_none by (apply (from_below (b_cnt s)); [apply i_below; exact IV|lia]).
    cbn. rewrite Z.eqb_refl. exists []. split; [reflexivity|constructor].
  - apply H. reflexivity.
Qed.

Theorem c_case : forall cond c8 v l s s' seen dirty, items false c8 s l = Ok s' ->
  inv s -> multi_ok s -> counts l -> b_cnt s' < 65536 -> signed c8 v ->
  separated seen dirty l = true -> label_ok dirty s ->
  (b_brk s = false -> seen = true) ->
  match after_case c8 v l with
  | Some r => exists lab, In (v, lab) (b_cases s') /\
      forall f, option_map (body cond) (from lab (b_out s' ++ f)) = Some (body cond (c_lines r ++ f))
  | None => forall lab, In (v, lab) (b_cases s') -> In (v, lab) (b_cases s)
  end.
Proof.
  intros cond c8 v l. induction l as [|i l IH]; intros s s' seen dirty H IV MO CT LT V SP LO SN.
  { cbn in H. injection H as <-. cbn. auto. }
  cbn [items] in H.
  destruct (one_item false c8 s i _) as [s1| |] eqn:E; try discriminate.
  apply Forall_cons_iff in CT as [C1 C2].
  destruct (inv_one _ _ _ _ _ _ E IV MO) as (I1 & M1 & L1).
  { constructor; [exact C1|constructor]. }
  destruct (inv_items _ _ _ _ _ H I1 M1 C2) as (_ & _ & L2).
  assert (G : b_cases s1 = b_cases s -> forall seen' dirty', separated seen' dirty' l = true ->
    label_ok dirty' s1 -> (b_brk s1 = false -> seen' = true) ->
    match after_case c8 v l with
    | Some r => exists lab, In (v, lab) (b_cases s') /\
        forall f, option_map (body cond) (from lab (b_out s' ++ f)) = Some (body cond (c_lines r ++ f))
    | None => forall lab, In (v, lab) (b_cases s') -> In (v, lab) (b_cases s)
    end).
  { intros EC seen' dirty' S1 LO1 SN1.
    specialize (IH s1 s' seen' dirty' H I1 M1 C2 LT V S1 LO1 SN1).
    destruct (after_case c8 v l); [exact IH|]. rewrite EC in IH. exact IH. }
  destruct i as [vs| | |id|id k]; cbn [one_item] in E.
  - destruct vs as [|x vs]; [discriminate|].
    cbn [separated] in SP. apply andb_true_iff in SP as [DR SP].
    apply negb_true_iff in DR. subst dirty.
    apply case_values_eq in E; [|discriminate].
    destruct E as (E1 & E2 & E3 & _ & _ & E6 & E7 & _).
    assert (LB : exists t, from (b_saved s1) (b_out s1) = Some t /\ quiet t).
    { rewrite E3, E6. apply new_label_ok; [exact IV|rewrite <- E1; lia|].
      intro K. apply LO; auto. }
    cbn [after_case].
    destruct (has c8 v (x :: vs)) eqn:HV.
    + exists (b_saved s1). split.
      * destruct (items_cases _ _ _ _ _ H) as [q Q]. rewrite Q, E7.
        apply in_app_iff. left. apply in_app_iff. right.
        apply (case_value_has c8 v (x :: vs) V) in HV.
        apply in_map_iff in HV as (y & Y1 & Y2). apply in_map_iff.
        exists y. split; [|exact Y2]. rewrite Y1, E3. reflexivity.
      * intro f. destruct LB as (t & T1 & T2).
        destruct (items_out _ _ _ _ _ H) as [q Q]. rewrite Q, <- app_assoc.
        rewrite (from_app_some _ _ _ _ T1). cbn [option_map]. f_equal.
        rewrite body_quiet by exact T2.
        apply (body_c cond l s1 s' c8 H q f Q).
    + assert (NI : forall lab, In (v, lab) (b_cases s1) -> In (v, lab) (b_cases s)).
      { intros lab IN. rewrite E7 in IN. apply in_app_iff in IN as [IN|IN]; [exact IN|].
        exfalso. assert (true = false); [|discriminate]. rewrite <- HV. symmetry.
        apply (case_value_has c8 v (x :: vs) V).
        apply in_map_iff in IN as (y & Y1 & Y2). apply pair_equal_spec in Y1 as [Y1 _].
        apply in_map_iff. exists y. auto. }
      specialize (IH s1 s' true false H I1 M1 C2 LT V SP (fun _ _ => LB) (fun _ => eq_refl)).
      destruct (after_case c8 v l); [exact IH|]. auto.
  - unfold default in E. destruct (b_def s); [discriminate|].
    cbn [andb negb] in E.
    assert (EQ : s1 = {| b_cnt := b_cnt s + 1; b_brk := b_brk s || false; b_saved := b_saved s;
            b_multi := b_multi s; b_cases := b_cases s; b_def := Some (b_cnt s + 1);
            b_out := b_out s ++ [] ++ [BLabel (b_cnt s + 1)] |}) by congruence.
    cbn [after_case separated] in *. subst s1. apply (G eq_refl seen dirty SP).
    + intros K D. cbn in K. rewrite orb_false_r in K.
      destruct (LO K D) as (t & T1 & T2). cbn [b_saved b_out].
      rewrite (from_app_some _ _ _ _ T1). eexists. split; [reflexivity|].
      apply Forall_app. split; [exact T2|]. repeat constructor. eauto.
    + cbn. rewrite orb_false_r. exact SN.
  - injection E as <-. cbn [after_case separated] in *. apply (G eq_refl false false SP).
    + intros K. discriminate.
    + discriminate.
  - injection E as <-. cbn [after_case separated] in *. apply (G eq_refl false false SP).
    + intros K. discriminate.
    + discriminate.
  - injection E as <-. cbn [after_case separated] in *. apply (G eq_refl seen seen SP).
    + intros K D. cbn in K. rewrite (SN K) in D. discriminate.
    + exact SN.
Qed.

(** .DEFAULT, in both styles. *)
Lemma default_c : forall cond c8 l s s', items false c8 s l = Ok s' ->
  inv s -> multi_ok s -> counts l -> b_def s = None ->
  match after_default l with
  | Some r => exists d, b_def s' = Some d /\ b_cnt s < d /\
      forall f, option_map (body cond) (from d (b_out s' ++ f)) = Some (body cond (c_lines r ++ f))
  | None => b_def s' = None
  end.
Proof.
  intros cond c8 l. induction l as [|i l IH]; intros s s' H IV MO CT DN.
  { cbn in H. injection H as <-. cbn. exact DN. }
  cbn [items] in H.
  destruct (one_item false c8 s i _) as [s1| |] eqn:E; try discriminate.
  apply Forall_cons_iff in CT as [C1 C2].
  destruct (inv_one _ _ _ _ _ _ E IV MO) as (I1 & M1 & L1).
  { constructor; [exact C1|constructor]. }
  assert (KEEP : forall d, b_def s1 = Some d -> b_def s' = Some d).
  { clear -H. revert s1 H. induction l as [|i l IH]; intros s1 H d D; cbn [items] in H.
    - injection H as <-. exact D.
    - destruct (one_item false c8 s1 i _) as [s2| |] eqn:E; try discriminate.
      apply (IH s2 H). destruct i as [vs| | |id|id k]; cbn [one_item] in E.
      + destruct vs; [discriminate|]. apply case_values_eq in E; [|discriminate].
        destruct E as (_ & _ & _ & _ & E & _). rewrite E. exact D.
      + unfold default in E. rewrite D in E. discriminate.
      + injection E as <-. exact D.
      + injection E as <-. exact D.
      + injection E as <-. exact D. }
  assert (G : b_def s1 = None ->
    match after_default l with
    | Some r => exists d, b_def s' = Some d /\ b_cnt s < d /\
      forall f, option_map (body cond) (from d (b_out s' ++ f)) = Some (body cond (c_lines r ++ f))
    | None => b_def s' = None
    end).
  { intro D. specialize (IH s1 s' H I1 M1 C2 D).
    destruct (after_default l); [|exact IH]. destruct IH as (d & D1 & D2 & D3).
    exists d. split; [exact D1|]. split; [lia|exact D3]. }
  destruct i as [vs| | |id|id k]; cbn [one_item after_default] in *.
  - destruct vs; [discriminate|]. apply case_values_eq in E; [|discriminate].
    apply G. destruct E as (_ & _ & _ & _ & E & _). rewrite E. exact DN.
  - unfold default in E. rewrite DN in E. cbn [andb] in E.
    assert (D1 : b_def s1 = Some (b_cnt s + 1)) by (injection E as <-; reflexivity).
    assert (O1 : b_out s1 = b_out s ++ [BLabel (b_cnt s + 1)]) by (injection E as <-; reflexivity).
    exists (b_cnt s + 1). split; [apply KEEP; exact D1|]. split; [lia|]. intro f.
    destruct (items_out _ _ _ _ _ H) as [q Q]. rewrite Q, O1, <- !app_assoc.
    rewrite from_app_none by (apply (from_below (b_cnt s)); [apply i_below; exact IV|lia]).
    cbn. rewrite Z.eqb_refl. cbn [option_map]. f_equal.
    apply (body_c cond l s1 s' c8 H q f Q).
  - apply G. injection E as <-. exact DN.
  - apply G. injection E as <-. exact DN.
  - apply G. injection E as <-. exact DN.
Qed.

Lemma until_break_body : forall cond l f, closed l ->
  body cond (c_lines l ++ f) = AtExit (until_break cond l).
Proof.
  intros cond l f [p ->]. induction p as [|i p IH]; cbn; [reflexivity|].
  destruct i; cbn; auto.
  - rewrite IH. destruct (cond id); reflexivity.
  - rewrite IH. reflexivity.
Qed.

Lemma closed_tail : forall c8 v l r, closed l ->
  after_case c8 v l = Some r \/ after_default l = Some r -> closed r.
Proof.
  intros c8 v l r [p ->]. revert r. induction p as [|i p IH]; intros r H.
  - cbn in H. destruct H; discriminate.
  - destruct i; cbn [app after_case after_default] in H; try (apply IH; exact H).
    + destruct (has c8 v vs); [|apply IH; exact H].
      destruct H as [H|H]; [|apply IH; right; exact H].
      injection H as <-. exists p. reflexivity.
    + destruct H as [H|H]; [apply IH; left; exact H|].
      injection H as <-. exists p. reflexivity.
Qed.

(** ** The style of the assembler *)

Lemma body_asm : forall cond c8 l s s', items true c8 s l = Ok s' ->
  b_multi s = 0 \/ (1 <= b_multi s /\ exists vs r, l = ICase vs :: r) ->
  (b_cases s <> [] \/ b_def s <> None) ->
  forall o f, b_out s' = b_out s ++ o ->
  body cond (o ++ BExit :: f) =
  AtExit (until_case cond (if b_multi s =? 0 then l else skip_cases l)).
Proof.
  intros cond c8 l. induction l as [|i l IH]; intros s s' H M CS o f O; cbn [items] in H.
  { injection H as <-. assert (o = []) as ->.
    { apply (app_inv_head (b_out s)). rewrite app_nil_r. auto. }
    destruct (b_multi s =? 0); reflexivity. }
  destruct (one_item true c8 s i _) as [s1| |] eqn:E; try discriminate.
  destruct (items_out _ _ _ _ _ H) as [q Q].
  assert (SPLIT : forall p, b_out s1 = b_out s ++ p -> o = p ++ q).
  { intros p P. apply (app_inv_head (b_out s)). rewrite <- O, Q, P, app_assoc. reflexivity. }
  destruct i as [vs| | |id|id k]; cbn [one_item] in E.
  - destruct vs as [|v vs]; [discriminate|].
    set (next := match l with [] => false | j :: _ => is_case j end) in E.
    apply case_values_eq in E; [|discriminate].
    destruct E as (_ & _ & _ & E4 & E5 & E6 & E7 & _).
    destruct (Z.eqb_spec (b_multi s) 0) as [M0|M0].
    + (* the first of a group leaves the case before *)
      assert (P : exists p, b_out s1 = b_out s ++ BExit :: p).
      { rewrite E6. unfold new_label, asm_case. rewrite M0.
        destruct next; cbn; (eexists; rewrite <- app_assoc; reflexivity). }
      destruct P as [p P]. rewrite (SPLIT _ P). reflexivity.
    + destruct M as [M|[M _]]; [congruence|].
      assert (P : exists p, b_out s1 = b_out s ++ p /\ quiet p).
      { rewrite E6. unfold new_label, asm_case.
        destruct (Z.eqb_spec (b_multi s) 0) as [|_]; [congruence|].
        destruct (Z.leb_spec 1 (b_multi s)) as [_|]; [|lia].
        destruct next; cbn.
        - exists []. rewrite app_nil_r. split; [reflexivity|constructor].
        - eexists. split; [reflexivity|]. repeat constructor. eauto. }
      destruct P as (p & P & QP). rewrite (SPLIT _ P), <- app_assoc, body_quiet by exact QP.
      assert (MS : b_multi s1 = if next then b_multi s + 1 else 0).
      { rewrite E4. unfold asm_case.
        destruct (Z.eqb_spec (b_multi s) 0) as [|_]; [congruence|].
        destruct (Z.leb_spec 1 (b_multi s)) as [_|]; [|lia]. destruct next; reflexivity. }
      rewrite (IH s1 s' H).
      * cbn [skip_cases]. rewrite MS. unfold next. destruct l as [|j l]; [reflexivity|].
        destruct j; try reflexivity. cbn [is_case].
        destruct (Z.eqb_spec (b_multi s + 1) 0); [lia|reflexivity].
      * rewrite MS. unfold next. destruct l as [|j l]; [left; reflexivity|].
        destruct j; cbn [is_case]; [right; split; [lia|eauto]|left; reflexivity..].
      * rewrite E7. left. cbn [map]. intro K. apply app_eq_nil in K as [_ K]. discriminate.
      * exact Q.
  - (* .DEFAULT *)
    unfold default in E. destruct (b_def s) eqn:D; [discriminate|].
    destruct M as [M|(_ & vs & r & M)]; [|discriminate]. rewrite M. cbn [Z.eqb until_case].
    destruct CS as [CS|CS]; [|congruence].
    destruct (b_cases s) eqn:CE; [congruence|]. cbn [andb negb] in E.
    injection E as <-. cbn [b_out] in Q. rewrite (SPLIT _ eq_refl). reflexivity.
  - injection E as <-. destruct M as [M|(_ & vs & r & M)]; [|discriminate]. rewrite M.
    rewrite (SPLIT _ eq_refl). reflexivity.
  - destruct M as [M|(_ & vs & r & M)]; [|discriminate].
    injection E as <-. rewrite (SPLIT _ eq_refl). cbn [app body].
    rewrite (IH _ s' H); [|left; exact M|exact CS|exact Q]. cbn [b_multi]. rewrite M. cbn [Z.eqb until_case].
    destruct (cond id); reflexivity.
  - destruct M as [M|(_ & vs & r & M)]; [|discriminate].
    injection E as <-. rewrite (SPLIT _ eq_refl). cbn [app body].
    rewrite (IH _ s' H); [|left; exact M|exact CS|exact Q]. cbn [b_multi]. rewrite M. reflexivity.
Qed.

(** Inside a group the label leads to the end of what is written. *)
Definition group_ok (l : list item) (s : bst) : Prop :=
  b_multi s = 0 \/
  (1 <= b_multi s /\ (exists vs r, l = ICase vs :: r) /\
   exists t, from (b_saved s) (b_out s) = Some t /\ quiet t).

Lemma asm_case_step : forall c8 s v vs next s1, inv s -> multi_ok s ->
  (b_multi s = 0 \/ (1 <= b_multi s /\
     exists t, from (b_saved s) (b_out s) = Some t /\ quiet t)) ->
  case_values c8 (asm_case next s) (v :: vs) = Ok s1 -> b_cnt s1 < 65536 ->
  (exists t, from (b_saved s1) (b_out s1) = Some t /\ quiet t) /\
  b_multi s1 = (if next then b_multi s + 1 else 0) /\
  b_cases s1 = b_cases s ++ map (fun x => (case_value c8 x, b_saved s1)) (v :: vs) /\
  b_def s1 = b_def s.
Proof.
  intros c8 s v vs next s1 IV MO GO E LT.
  destruct (inv_asm_case next s IV MO) as [IA CA].
  apply case_values_eq in E; [|discriminate].
  destruct E as (E1 & E2 & E3 & E4 & E5 & E6 & E7 & _).
  assert (AC : b_cases (asm_case next s) = b_cases s /\ b_def (asm_case next s) = b_def s).
  { unfold asm_case. destruct next, (b_multi s =? 0), (1 <=? b_multi s); split; reflexivity. }
  destruct AC as [AC AD].
  split; [|split; [|split]].
  - rewrite E3, E6. apply new_label_ok; [exact IA|rewrite <- E1; lia|].
    intro K. unfold asm_case in K |- *.
    destruct next; destruct (Z.eqb_spec (b_multi s) 0) as [M0|M0]; try discriminate;
      destruct (1 <=? b_multi s); try discriminate; cbn;
      destruct GO as [GO|[_ GO]]; try congruence; exact GO.
  - rewrite E4. unfold asm_case. destruct next; destruct (Z.eqb_spec (b_multi s) 0) as [M0|M0];
      destruct (Z.leb_spec 1 (b_multi s)) as [L|L]; cbn; try reflexivity; try lia.
  - rewrite E7, AC, E3. reflexivity.
  - rewrite E5, AD. reflexivity.
Qed.

Theorem asm_case_ok : forall cond c8 v l s s', items true c8 s l = Ok s' ->
  inv s -> multi_ok s -> counts l -> b_cnt s' < 65536 -> signed c8 v ->
  group_ok l s ->
  match after_case c8 v l with
  | Some r => exists lab, In (v, lab) (b_cases s') /\
      forall f, option_map (body cond) (from lab (b_out s' ++ BExit :: f)) =
                Some (AtExit (until_case cond (skip_cases r)))
  | None => forall lab, In (v, lab) (b_cases s') -> In (v, lab) (b_cases s)
  end.
Proof.
  intros cond c8 v l. induction l as [|i l IH]; intros s s' H IV MO CT LT V GO.
  { cbn in H. injection H as <-. cbn. auto. }
  cbn [items] in H.
  destruct (one_item true c8 s i _) as [s1| |] eqn:E; try discriminate.
  apply Forall_cons_iff in CT as [C1 C2].
  destruct (inv_one _ _ _ _ _ _ E IV MO) as (I1 & M1 & L1).
  { constructor; [exact C1|constructor]. }
  destruct (inv_items _ _ _ _ _ H I1 M1 C2) as (_ & _ & L2).
  assert (G : b_cases s1 = b_cases s -> b_multi s1 = 0 ->
    match after_case c8 v l with
    | Some r => exists lab, In (v, lab) (b_cases s') /\
      forall f, option_map (body cond) (from lab (b_out s' ++ BExit :: f)) =
                Some (AtExit (until_case cond (skip_cases r)))
    | None => forall lab, In (v, lab) (b_cases s') -> In (v, lab) (b_cases s)
    end).
  { intros EC EM.
    specialize (IH s1 s' H I1 M1 C2 LT V (or_introl EM)).
    destruct (after_case c8 v l); [exact IH|]. rewrite EC in IH. exact IH. }
  destruct i as [vs| | |id|id k]; cbn [one_item] in E.
  - destruct vs as [|x vs]; [discriminate|].
    set (next := match l with [] => false | j :: _ => is_case j end) in E.
    apply asm_case_step in E; [|exact IV|exact MO| |lia].
    2:{ destruct GO as [GO|(G1 & _ & G2)]; [left; exact GO|right; split; assumption]. }
    destruct E as (LB & EM & EC & ED).
    assert (GO1 : group_ok l s1).
    { unfold group_ok. rewrite EM. unfold next. destruct l as [|j l]; [left; reflexivity|].
      destruct j; cbn [is_case]; [|left; reflexivity..].
      right. split; [destruct GO as [GO|[GO _]]; lia|]. split; [eauto|exact LB]. }
    cbn [after_case].
    destruct (has c8 v (x :: vs)) eqn:HV.
    + exists (b_saved s1). split.
      * destruct (items_cases _ _ _ _ _ H) as [q Q]. rewrite Q, EC.
        apply in_app_iff. left. apply in_app_iff. right.
        apply (case_value_has c8 v (x :: vs) V) in HV.
        apply in_map_iff in HV as (y & Y1 & Y2). apply in_map_iff.
        exists y. split; [|exact Y2]. rewrite Y1. reflexivity.
      * intro f. destruct LB as (t & T1 & T2).
        destruct (items_out _ _ _ _ _ H) as [q Q]. rewrite Q, <- app_assoc.
        rewrite (from_app_some _ _ _ _ T1). cbn [option_map]. f_equal.
        rewrite body_quiet by exact T2.
        rewrite (body_asm cond c8 l s1 s' H).
        -- f_equal. rewrite EM. unfold next. destruct l as [|j l]; [reflexivity|].
           destruct j; try reflexivity. cbn [is_case].
           destruct (Z.eqb_spec (b_multi s + 1) 0); [destruct GO as [GO|[GO _]]; lia|reflexivity].
        -- destruct GO1 as [G1|(G1 & G2 & _)]; [left; exact G1|right; split; assumption].
        -- left. rewrite EC. intro K. apply app_eq_nil in K as [_ K]. discriminate.
        -- exact Q.
    + assert (NI : forall lab, In (v, lab) (b_cases s1) -> In (v, lab) (b_cases s)).
      { intros lab IN. rewrite EC in IN. apply in_app_iff in IN as [IN|IN]; [exact IN|].
        exfalso. assert (true = false); [|discriminate]. rewrite <- HV. symmetry.
        apply (case_value_has c8 v (x :: vs) V).
        apply in_map_iff in IN as (y & Y1 & Y2). apply pair_equal_spec in Y1 as [Y1 _].
        apply in_map_iff. exists y. auto. }
      specialize (IH s1 s' H I1 M1 C2 LT V GO1).
      destruct (after_case c8 v l); [exact IH|]. auto.
  - destruct GO as [GO|(_ & (vs & r & X) & _)]; [|discriminate].
    unfold default in E. destruct (b_def s); [discriminate|].
    apply G; injection E as <-; [reflexivity|exact GO].
  - destruct GO as [GO|(_ & (vs & r & X) & _)]; [|discriminate].
    injection E as <-. apply G; [reflexivity|exact GO].
  - destruct GO as [GO|(_ & (vs & r & X) & _)]; [|discriminate].
    injection E as <-. apply G; [reflexivity|exact GO].
  - destruct GO as [GO|(_ & (vs & r & X) & _)]; [|discriminate].
    injection E as <-. apply G; [reflexivity|exact GO].
Qed.

Lemma default_asm : forall cond c8 l s s', items true c8 s l = Ok s' ->
  inv s -> multi_ok s -> counts l -> b_def s = None ->
  b_multi s = 0 \/ (1 <= b_multi s /\ exists vs r, l = ICase vs :: r) ->
  match after_default l with
  | Some r => exists d, b_def s' = Some d /\ b_cnt s < d /\
      forall f, option_map (body cond) (from d (b_out s' ++ BExit :: f)) =
                Some (AtExit (until_case cond r))
  | None => b_def s' = None
  end.
Proof.
  intros cond c8 l. induction l as [|i l IH]; intros s s' H IV MO CT DN MU.
  { cbn in H. injection H as <-. cbn. exact DN. }
  cbn [items] in H.
  destruct (one_item true c8 s i _) as [s1| |] eqn:E; try discriminate.
  apply Forall_cons_iff in CT as [C1 C2].
  destruct (inv_one _ _ _ _ _ _ E IV MO) as (I1 & M1 & L1).
  { constructor; [exact C1|constructor]. }
  assert (KEEP : forall d, b_def s1 = Some d -> b_def s' = Some d).
  { clear -H. revert s1 H. induction l as [|i l IH]; intros s1 H d D; cbn [items] in H.
    - injection H as <-. exact D.
    - destruct (one_item true c8 s1 i _) as [s2| |] eqn:E; try discriminate.
      apply (IH s2 H). destruct i as [vs| | |id|id k]; cbn [one_item] in E.
      + destruct vs; [discriminate|]. apply case_values_eq in E; [|discriminate].
        destruct E as (_ & _ & _ & _ & E & _). rewrite E.
        unfold asm_case. destruct (match l with [] => false | j :: _ => is_case j end),
          (b_multi s1 =? 0), (1 <=? b_multi s1); exact D.
      + unfold default in E. rewrite D in E. discriminate.
      + injection E as <-. exact D.
      + injection E as <-. exact D.
      + injection E as <-. exact D. }
  assert (G : b_def s1 = None ->
    b_multi s1 = 0 \/ (1 <= b_multi s1 /\ exists vs r, l = ICase vs :: r) ->
    match after_default l with
    | Some r => exists d, b_def s' = Some d /\ b_cnt s < d /\
      forall f, option_map (body cond) (from d (b_out s' ++ BExit :: f)) =
                Some (AtExit (until_case cond r))
    | None => b_def s' = None
    end).
  { intros D MU1. specialize (IH s1 s' H I1 M1 C2 D MU1).
    destruct (after_default l); [|exact IH]. destruct IH as (d & D1 & D2 & D3).
    exists d. split; [exact D1|]. split; [lia|exact D3]. }
  destruct i as [vs| | |id|id k]; cbn [one_item after_default] in *.
  - destruct vs as [|v vs]; [discriminate|].
    set (next := match l with [] => false | j :: _ => is_case j end) in E.
    apply case_values_eq in E; [|discriminate].
    destruct E as (_ & _ & _ & E4 & E5 & _).
    assert (AD : b_def (asm_case next s) = b_def s).
    { unfold asm_case. destruct next, (b_multi s =? 0), (1 <=? b_multi s); reflexivity. }
    assert (AM : b_multi (asm_case next s) = if next then b_multi s + 1 else 0).
    { unfold asm_case. destruct next; destruct (Z.eqb_spec (b_multi s) 0) as [M0|M0];
        destruct (Z.leb_spec 1 (b_multi s)) as [L|L]; cbn; try reflexivity; try lia. }
    apply G; [rewrite E5, AD; exact DN|]. rewrite E4, AM. unfold next.
    destruct l as [|j l]; [left; reflexivity|].
    destruct j; cbn [is_case]; [|left; reflexivity..].
    right. split; [lia|eauto].
  - destruct MU as [MU|(_ & vs & r & X)]; [|discriminate].
    unfold default in E. rewrite DN in E.
    assert (D1 : b_def s1 = Some (b_cnt s + 1)) by (injection E as <-; reflexivity).
    assert (O1 : exists x, b_out s1 = b_out s ++ x ++ [BLabel (b_cnt s + 1)] /\ from (b_cnt s + 1) x = None).
    { injection E as <-. cbn [b_out]. eexists. split; [reflexivity|].
      destruct (b_cases s); reflexivity. }
    assert (MS : b_multi s1 = 0) by (injection E as <-; exact MU).
    exists (b_cnt s + 1). split; [apply KEEP; exact D1|]. split; [lia|]. intro f.
    destruct (items_out _ _ _ _ _ H) as [q Q]. destruct O1 as (x & O1 & FX).
    rewrite Q, O1, <- !app_assoc.
    rewrite from_app_none by (apply (from_below (b_cnt s)); [apply i_below; exact IV|lia]).
    rewrite from_app_none by exact FX.
    cbn [app from]. rewrite Z.eqb_refl. cbn [option_map]. f_equal.
    rewrite (body_asm cond c8 l s1 s' H); [rewrite MS; reflexivity|left; exact MS| |exact Q].
    right. rewrite D1. discriminate.
  - destruct MU as [MU|(_ & vs & r & X)]; [|discriminate].
    injection E as <-. apply G; [exact DN|left; exact MU].
  - destruct MU as [MU|(_ & vs & r & X)]; [|discriminate].
    injection E as <-. apply G; [exact DN|left; exact MU].
  - destruct MU as [MU|(_ & vs & r & X)]; [|discriminate].
    injection E as <-. apply G; [exact DN|left; exact MU].
Qed.
