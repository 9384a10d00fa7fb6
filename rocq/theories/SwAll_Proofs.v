(** .SWITCH from the source to the block which is executed. *)
From Coq Require Import ZArith List Bool Lia Permutation.
From Verif Require Import Base Switch_Model Switch_Spec SwBody_Proofs SwSort_Proofs SwTab_Proofs
  SwRun_Proofs SwFind_Proofs SwGen_Proofs.
Import ListNotations.
Open Scope Z_scope.

Local Arguments swrap : simpl never.
Local Arguments Z.pow : simpl never.
Local Arguments Z.modulo : simpl never.
Local Arguments Z.mul : simpl never.
Local Arguments Z.sub : simpl never.

(** ** Labels *)

Definition above (k : Z) (b : list bline) : Prop := forall n, In (BLabel n) b -> k < n.

Lemma above_app : forall k a b, above k a -> above k b -> above k (a ++ b).
Proof. intros k a b A B n H. apply in_app_iff in H as [H|H]; auto. Qed.

Lemma above_one : forall k x, (forall n, x = BLabel n -> k < n) -> above k [x].
Proof. intros k x H n [E|[]]. apply H. exact E. Qed.

Lemma above_nil : forall k, above k [].
Proof. intros k n []. Qed.

Lemma case_values_step : forall c8 vs s s', case_values c8 s vs = Ok s' -> vs <> [] ->
  b_cnt s' = b_cnt (new_label s) /\ b_out s' = b_out (new_label s).
Proof.
  intros c8 vs s s' H N. destruct (case_values_eq c8 vs s s' H N) as (A & _ & _ & _ & _ & B & _). auto.
Qed.

Lemma new_label_step : forall s, b_cnt s <= b_cnt (new_label s) <= b_cnt s + 1 /\
  exists o, b_out (new_label s) = b_out s ++ o /\ above (b_cnt s) o.
Proof.
  intros s. unfold new_label. destruct (b_brk s); cbn [b_cnt b_out].
  - split; [lia|]. exists [BLabel (b_cnt s + 1)]. split; [reflexivity|]. apply above_one.
    intros n E. injection E as <-. lia.
  - split; [lia|]. exists []. rewrite app_nil_r. split; [reflexivity|]. apply above_nil.
Qed.

Lemma asm_case_step' : forall next s, b_cnt (asm_case next s) = b_cnt s /\
  exists o, b_out (asm_case next s) = b_out s ++ o /\ (forall k, above k o).
Proof.
  intros next s. unfold asm_case.
  destruct next; [destruct (b_multi s =? 0)|destruct (1 <=? b_multi s)]; cbn [b_cnt b_out];
    (split; [reflexivity|]);
    ((exists [BExit]; split; [reflexivity|]; intro k; apply above_one; discriminate) ||
     (exists []; rewrite app_nil_r; split; [reflexivity|]; intro k; apply above_nil)).
Qed.

Lemma one_step : forall asm c8 s i next s', one_item asm c8 s i next = Ok s' -> counts [i] ->
  b_cnt s <= b_cnt s' <= b_cnt s + uses [i] /\
  exists o, b_out s' = b_out s ++ o /\ above (b_cnt s) o.
Proof.
  intros asm c8 s i next s' H CT. destruct i as [vs| | |id|id k]; cbn [one_item] in H.
  - destruct vs as [|v vs]; [discriminate|].
    assert (H' : case_values c8 (if asm then asm_case next s else s) (v :: vs) = Ok s') by exact H. clear H.
    destruct (case_values_step c8 _ _ _ H' ltac:(discriminate)) as [A B].
    set (s1 := if asm then asm_case next s else s) in *.
    assert (S1 : b_cnt s1 = b_cnt s /\ exists o, b_out s1 = b_out s ++ o /\ (forall k, above k o)).
    { unfold s1. destruct asm; [apply asm_case_step'|]. split; [reflexivity|].
      exists []. rewrite app_nil_r. split; [reflexivity|]. intro k. apply above_nil. }
    destruct S1 as (C1 & o1 & O1 & AB). destruct (new_label_step s1) as (C2 & o2 & O2 & A2).
    cbn [uses]. split; [lia|]. exists (o1 ++ o2). rewrite B, O2, O1, app_assoc.
    split; [reflexivity|]. apply above_app; [apply AB|rewrite <- C1; exact A2].
  - unfold default in H. destruct (b_def s); [discriminate|].
    assert (G : forall a b : bst, Ok a = Ok b -> a = b) by congruence. apply G in H. subst s'.
    cbn [b_cnt b_out uses]. split; [lia|]. eexists. split; [reflexivity|]. apply above_app.
    + destruct (asm && _); [apply above_one; discriminate|apply above_nil].
    + apply above_one. intros n E. injection E as <-. lia.
  - assert (G : forall a b : bst, Ok a = Ok b -> a = b) by congruence. apply G in H. subst s'.
    cbn [b_cnt b_out uses]. split; [lia|]. eexists. split; [reflexivity|]. apply above_one; discriminate.
  - assert (G : forall a b : bst, Ok a = Ok b -> a = b) by congruence. apply G in H. subst s'.
    cbn [b_cnt b_out uses]. split; [lia|]. eexists. split; [reflexivity|]. apply above_one; discriminate.
  - assert (G : forall a b : bst, Ok a = Ok b -> a = b) by congruence. apply G in H. subst s'.
    apply Forall_cons_iff in CT as [CT _].
    cbn [b_cnt b_out uses]. split; [lia|]. eexists. split; [reflexivity|]. apply above_one; discriminate.
Qed.

Lemma uses_cons : forall i r, uses (i :: r) = uses [i] + uses r.
Proof. intros [vs| | |id|id k] r; cbn [uses]; lia. Qed.

Lemma items_step : forall asm c8 l s s', items asm c8 s l = Ok s' -> counts l ->
  b_cnt s <= b_cnt s' <= b_cnt s + uses l /\
  exists o, b_out s' = b_out s ++ o /\ above (b_cnt s) o.
Proof.
  intros asm c8 l. induction l as [|i r IH]; intros s s' H CT; cbn [items] in H.
  - assert (G : forall a b : bst, Ok a = Ok b -> a = b) by congruence. apply G in H. subst s'.
    cbn [uses]. split; [lia|]. exists []. rewrite app_nil_r. split; [reflexivity|apply above_nil].
  - set (nx := match r with j :: _ => is_case j | [] => false end) in H.
    destruct (one_item asm c8 s i nx) as [s1| |] eqn:E; try discriminate.
    apply Forall_cons_iff in CT as [C1 C2].
    destruct (one_step asm c8 s i nx s1 E) as (D1 & o1 & O1 & A1).
    { constructor; [exact C1|constructor]. }
    destruct (IH s1 s' H C2) as (D2 & o2 & O2 & A2).
    rewrite uses_cons. split; [lia|]. exists (o1 ++ o2). rewrite O2, O1, app_assoc.
    split; [reflexivity|]. apply above_app; [exact A1|].
    intros n N. specialize (A2 n N). lia.
Qed.

Lemma from_in : forall l b t, from l b = Some t -> In (BLabel l) b.
Proof.
  intros l b. induction b as [|x b IH]; intros t H; [discriminate|].
  destruct x; cbn [from] in H; try (right; apply (IH t); exact H).
  destruct (Z.eqb_spec n l) as [->|NE]; [left; reflexivity|right; apply (IH t); exact H].
Qed.

(** ** What is compiled *)

Record parts (asm c8 : bool) (cnt : Z) (l : list item) (p : prog) (s : bst) : Prop := {
  pa_items : items asm c8 (start cnt) l = Ok s;
  pa_p : p = {| p_body := finish asm s; p_cases := b_cases s;
                p_other := otherwise cnt s; p_exit := exit_label cnt |};
  pa_cnt : b_cnt s < 65536;
  pa_above : above (cnt + 8) (b_out s);
  pa_inv : inv s
}.

Lemma compile_parts : forall asm c8 cnt l p, compile asm c8 cnt l = Ok p ->
  counts l -> 0 <= cnt -> cnt + 8 + uses l < 65536 ->
  exists s, parts asm c8 cnt l p s.
Proof.
  intros asm c8 cnt l p H CT C0 UB. unfold compile in H.
  destruct (items asm c8 (start cnt) l) as [s| |] eqn:E; try discriminate. cbn [bindr] in H.
  exists s. destruct (items_step _ _ _ _ _ E CT) as (D & o & O & A). cbn [start b_cnt b_out app] in D, O, A.
  constructor; [exact E|congruence|lia|rewrite O; exact A|].
  destruct (inv_start cnt C0) as [I1 I2]. apply (inv_items _ _ _ _ _ E I1 I2 CT).
Qed.

(** The values and the labels. *)
Theorem compile_proper : forall asm c8 cnt l p, compile asm c8 cnt l = Ok p ->
  counts l -> 0 <= cnt -> cnt + 8 + uses l < 65536 ->
  NoDup (map fst (p_cases p)) /\ Forall (fun c => 0 < snd c < 65536) (p_cases p).
Proof.
  intros asm c8 cnt l p H CT C0 UB. destruct (compile_parts _ _ _ _ _ H CT C0 UB) as (s & P).
  pose proof (pa_p _ _ _ _ _ _ P) as ->. cbn [p_cases]. split; [apply (pa_inv _ _ _ _ _ _ P)|].
  destruct (inv_start cnt C0) as [I1 I2].
  eapply Forall_impl; [|apply (items_labels asm c8 l (start cnt) s (pa_items _ _ _ _ _ _ P) I1 I2 CT)].
  - cbn. intros c R. pose proof (pa_cnt _ _ _ _ _ _ P). lia.
  - apply P.
  - constructor.
  - cbn. lia.
Qed.

Lemma bits_range : forall c8 x, signed c8 (swrap (bits c8) x).
Proof. intros c8 x. unfold signed. apply swrap_range. destruct c8; cbn; lia. Qed.

Lemma land_case : forall cond p lab st, lab <> p_exit p ->
  option_map (body cond) (from lab (p_body p)) = Some st -> land cond p lab = Some st.
Proof.
  intros cond p lab st N H. unfold land. destruct (Z.eqb_spec lab (p_exit p)); [congruence|exact H].
Qed.

(** Style of C. *)
Theorem body_of_c : forall cond c8 cnt l p v, compile false c8 cnt l = Ok p ->
  counts l -> 0 <= cnt -> cnt + 8 + uses l < 65536 ->
  separated false false l = true -> closed l -> signed c8 v ->
  land cond p (pick (p_other p) (p_cases p) v) = Some (AtExit (c_trace cond c8 v l)).
Proof.
  intros cond c8 cnt l p v H CT C0 UB SP CL SG.
  destruct (compile_parts _ _ _ _ _ H CT C0 UB) as (s & P). clear H.
  destruct (inv_start cnt C0) as [I1 I2].
  pose proof (pa_items _ _ _ _ _ _ P) as IT. pose proof (pa_p _ _ _ _ _ _ P) as PP.
  pose proof (pa_above _ _ _ _ _ _ P) as AB.
  pose proof (c_case cond c8 v l (start cnt) s false false IT I1 I2 CT (pa_cnt _ _ _ _ _ _ P) SG SP) as CC.
  specialize (CC ltac:(intros Q; discriminate Q) ltac:(intros Q; discriminate Q)).
  pose proof (default_c cond c8 l (start cnt) s IT I1 I2 CT eq_refl) as DC.
  set (tail := match b_def s with Some _ => [] | None => [BLabel (b_cnt s + 1)] end).
  assert (BD : p_body p = b_out s ++ tail) by (rewrite PP; reflexivity).
  assert (EX : p_exit p = cnt + 3) by (rewrite PP; reflexivity).
  assert (CS : p_cases p = b_cases s) by (rewrite PP; reflexivity).
  assert (OT : p_other p = otherwise cnt s) by (rewrite PP; reflexivity).
  rewrite CS, OT. clear PP CS OT.
  unfold c_trace, selected.
  destruct (after_case c8 v l) as [r|] eqn:AC.
  - destruct CC as (lab & IN & BO). rewrite (pick_in _ _ v lab) by (try exact IN; apply P).
    specialize (BO tail). rewrite <- BD in BO.
    rewrite until_break_body in BO by (apply (closed_tail c8 v l); [exact CL|left; exact AC]).
    apply land_case; [|exact BO].
    destruct (from lab (p_body p)) as [t|] eqn:FR; [|discriminate].
    apply from_in in FR. rewrite BD in FR. apply in_app_iff in FR as [FR|FR].
    + specialize (AB _ FR). lia.
    + assert (lab = b_cnt s + 1).
      { unfold tail in FR. destruct (b_def s); [destruct FR|]. destruct FR as [E|[]]. congruence. }
      destruct (items_step _ _ _ _ _ IT CT) as (D & _). cbn [start b_cnt] in D. lia.
  - rewrite pick_out.
    2:{ intro K. apply in_map_iff in K as ([y lab] & K1 & K2). cbn in K1. subst y.
        apply (CC lab K2). }
    destruct (after_default l) as [r|] eqn:AD.
    + destruct DC as (d & DE & DL & BO). unfold otherwise. rewrite DE.
      specialize (BO tail). rewrite <- BD in BO.
      rewrite until_break_body in BO by (apply (closed_tail c8 v l); [exact CL|right; exact AD]).
      apply land_case; [|exact BO]. cbn [start b_cnt] in DL. lia.
    + unfold otherwise. rewrite DC. unfold land. rewrite EX. unfold exit_label. rewrite Z.eqb_refl. reflexivity.
Qed.

(** Style of assembler. *)
Theorem body_of_asm : forall cond c8 cnt l p v, compile true c8 cnt l = Ok p ->
  counts l -> 0 <= cnt -> cnt + 8 + uses l < 65536 -> signed c8 v ->
  land cond p (pick (p_other p) (p_cases p) v) = Some (AtExit (asm_trace cond c8 v l)).
Proof.
  intros cond c8 cnt l p v H CT C0 UB SG.
  destruct (compile_parts _ _ _ _ _ H CT C0 UB) as (s & P). clear H.
  destruct (inv_start cnt C0) as [I1 I2].
  pose proof (pa_items _ _ _ _ _ _ P) as IT. pose proof (pa_p _ _ _ _ _ _ P) as PP.
  pose proof (pa_above _ _ _ _ _ _ P) as AB.
  pose proof (asm_case_ok cond c8 v l (start cnt) s IT I1 I2 CT (pa_cnt _ _ _ _ _ _ P) SG
    (or_introl eq_refl)) as CC.
  pose proof (default_asm cond c8 l (start cnt) s IT I1 I2 CT eq_refl (or_introl eq_refl)) as DC.
  set (tail := match b_def s with Some _ => [] | None => [BLabel (b_cnt s + 1)] end).
  assert (BD : p_body p = b_out s ++ BExit :: tail) by (rewrite PP; reflexivity).
  assert (EX : p_exit p = cnt + 3) by (rewrite PP; reflexivity).
  assert (CS : p_cases p = b_cases s) by (rewrite PP; reflexivity).
  assert (OT : p_other p = otherwise cnt s) by (rewrite PP; reflexivity).
  rewrite CS, OT. clear PP CS OT.
  unfold asm_trace.
  destruct (after_case c8 v l) as [r|] eqn:AC.
  - destruct CC as (lab & IN & BO). rewrite (pick_in _ _ v lab) by (try exact IN; apply P).
    specialize (BO tail). rewrite <- BD in BO.
    apply land_case; [|exact BO].
    destruct (from lab (p_body p)) as [t|] eqn:FR; [|discriminate].
    apply from_in in FR. rewrite BD in FR. apply in_app_iff in FR as [FR|[FR|FR]].
    + specialize (AB _ FR). lia.
    + discriminate.
    + assert (lab = b_cnt s + 1).
      { unfold tail in FR. destruct (b_def s); [destruct FR|]. destruct FR as [E|[]]. congruence. }
      destruct (items_step _ _ _ _ _ IT CT) as (D & _). cbn [start b_cnt] in D. lia.
  - rewrite pick_out.
    2:{ intro K. apply in_map_iff in K as ([y lab] & K1 & K2). cbn in K1. subst y.
        apply (CC lab K2). }
    destruct (after_default l) as [r|] eqn:AD.
    + destruct DC as (d & DE & DL & BO). unfold otherwise. rewrite DE.
      specialize (BO tail). rewrite <- BD in BO.
      apply land_case; [|exact BO]. cbn [start b_cnt] in DL. lia.
    + unfold otherwise. rewrite DC. unfold land. rewrite EX. unfold exit_label. rewrite Z.eqb_refl. reflexivity.
Qed.

(** Both together. *)
Theorem switch_ok : forall asm cond w cnt l p, compile asm (s_8 w) cnt l = Ok p ->
  counts l -> 0 <= cnt -> cnt + 8 + uses l < 65536 ->
  (asm = false -> separated false false l = true /\ closed l) ->
  Forall (fun c => - 2 ^ 31 <= fst c < 2 ^ 31) (p_cases p) -> plain w (p_cases p) ->
  s_def w = p_other p -> fits (s_64 w) (s_8 w) (s_size w) (p_cases p) ->
  exists o, gen w (p_cases p) = Ok o /\
  forall e s, e_o e = o -> e_w e = (if s_64 w then 64 else 32) -> placed e ->
    (kept (way_of (s_8 w) (s_size w) (p_cases p)) = false -> 0 <= m_reg s RA < 2 ^ bits (s_8 w)) ->
    exists lab, arrives e (p_exit p) (kept (way_of (s_8 w) (s_size w) (p_cases p))) s lab /\
      land cond p lab =
      Some (AtExit ((if asm then asm_trace else c_trace) cond (s_8 w)
                      (swrap (bits (s_8 w)) (m_reg s RA)) l)).
Proof.
  intros asm cond w cnt l p H CT C0 UB ST IV PL DF FT.
  destruct (compile_proper _ _ _ _ _ H CT C0 UB) as [ND LB].
  assert (OK : okay w (p_cases p)).
  { split; [|exact PL]. split; [exact ND|]. rewrite Forall_forall in *. auto. }
  destruct (dispatch w (p_cases p) OK FT) as (o & G & D). exists o. split; [exact G|].
  intros e s EO EW PD RR. specialize (D e (p_exit p) s EO EW PD RR). rewrite DF in D.
  eexists. split; [exact D|].
  destruct asm.
  - apply (body_of_asm cond (s_8 w) cnt l p); auto. apply bits_range.
  - destruct (ST eq_refl). apply (body_of_c cond (s_8 w) cnt l p); auto. apply bits_range.
Qed.

(** ** Which bodies are accepted *)

Lemma value_eq : forall c8 x y, (case_value c8 x = case_value c8 y) <-> x mod 2 ^ bits c8 = y mod 2 ^ bits c8.
Proof.
  intros c8 x y. assert (E : forall z, case_value c8 z = swrap (bits c8) z) by (intro z; destruct c8; reflexivity).
  rewrite !E. split; intro H; [apply swrap_inj; [apply bits_pos|exact H]|apply swrap_cong; exact H].
Qed.

Lemma NoDup_app_snoc : forall (l : list Z) x, NoDup l -> ~ In x l -> NoDup (l ++ [x]).
Proof.
  intros l x N I. apply (Permutation_NoDup (l := x :: l)); [|constructor; assumption].
  apply Permutation_cons_append.
Qed.

Definition seen (c8 : bool) (cases : list (Z * Z)) (v : Z) : bool :=
  existsb (fun c => fst c =? case_value c8 v) cases.

Lemma case_values_run : forall c8 vs s,
  match case_values c8 s vs with
  | Ok s' => b_def s' = b_def s /\ map fst (b_cases s') = map fst (b_cases s) ++ map (case_value c8) vs /\
             (NoDup (map fst (b_cases s)) -> NoDup (map fst (b_cases s')))
  | UB => False
  | Err => ~ NoDup (map fst (b_cases s) ++ map (case_value c8) vs)
  end.
Proof.
  intros c8 vs. induction vs as [|v r IH]; intros s; cbn [case_values].
  - rewrite app_nil_r. auto.
  - unfold one_case.
    assert (N : b_cases (new_label s) = b_cases s /\ b_def (new_label s) = b_def s)
      by (unfold new_label; destruct (b_brk s); auto).
    destruct N as [N1 N2]. rewrite N1.
    destruct (existsb (fun c => fst c =? case_value c8 v) (b_cases s)) eqn:E.
    + apply existsb_exists in E as (c & C1 & C2). apply Z.eqb_eq in C2. intro K.
      cbn [map] in K. apply NoDup_remove_2 in K. apply K. apply in_app_iff. left.
      rewrite <- C2. apply in_map. exact C1.
    + match goal with |- match case_values c8 ?t r with _ => _ end => set (s1 := t) end.
      specialize (IH s1).
      assert (M : map fst (b_cases s1) = map fst (b_cases s) ++ [case_value c8 v])
        by (unfold s1; cbn; rewrite ?N1, map_app; reflexivity).
      assert (D : b_def s1 = b_def s) by (unfold s1; cbn; exact N2).
      destruct (case_values c8 s1 r) as [s'| |].
      * destruct IH as (A1 & A2 & A3). split; [congruence|]. split.
        -- rewrite A2, M, <- app_assoc. reflexivity.
        -- intro ND. apply A3. rewrite M. apply NoDup_app_snoc; [exact ND|].
           intro K. apply in_map_iff in K as (c & K1 & K2).
           assert (Q : existsb (fun c => fst c =? case_value c8 v) (b_cases s) = true).
           { apply existsb_exists. exists c. split; [exact K2|]. apply Z.eqb_eq. exact K1. }
           congruence.
      * cbn [map]. rewrite M, <- app_assoc in IH. exact IH.
      * exact IH.
Qed.

Lemma nodup_app_l : forall (A : Type) (a b : list A), NoDup (a ++ b) -> NoDup a.
Proof.
  intros A a b. induction a as [|x a IH]; intros H; [constructor|]. cbn in H. inversion H; subst.
  constructor; [|apply IH; assumption]. intro K. apply H2. apply in_app_iff. left. exact K.
Qed.

Lemma nodup_values : forall c8 l, NoDup (map (case_value c8) l) <-> NoDup (map (fun v => v mod 2 ^ bits c8) l).
Proof.
  intros c8 l. induction l as [|x l IH]; cbn [map]; [split; intros; constructor|].
  assert (I : In (case_value c8 x) (map (case_value c8) l) <->
              In (x mod 2 ^ bits c8) (map (fun v => v mod 2 ^ bits c8) l)).
  { rewrite !in_map_iff. split; intros (y & Y1 & Y2); exists y; (split; [apply value_eq; exact Y1|exact Y2]). }
  split; intro H; inversion H; subst; constructor; tauto.
Qed.

Lemma items_run : forall asm c8 l s, NoDup (map fst (b_cases s)) ->
  match items asm c8 s l with
  | Ok s' => NoDup (map fst (b_cases s) ++ map (case_value c8) (all_values l)) /\
             ~ In (ICase []) l /\ (b_def s = None -> defaults l <= 1) /\ (b_def s <> None -> defaults l = 0)
  | UB => False
  | Err => ~ NoDup (map fst (b_cases s) ++ map (case_value c8) (all_values l)) \/
           In (ICase []) l \/ 1 < defaults l \/ (b_def s <> None /\ 0 < defaults l)
  end.
Proof.
  intros asm c8 l. induction l as [|i r IH]; intros s ND.
  - cbn [items all_values map defaults]. rewrite app_nil_r. split; [exact ND|]. split; [intros []|]. split; intros; lia.
  - assert (D0 : forall q, 0 <= defaults q).
    { clear. induction q as [|[] q IH]; cbn [defaults]; lia. }
    cbn [items]. set (nx := match r with j :: _ => is_case j | [] => false end).
    destruct i as [vs| | |id|id k].
    + destruct vs as [|v vs]; [cbn [one_item]; right; left; left; reflexivity|].
      cbn [one_item all_values].
      set (s1 := if asm then asm_case nx s else s).
      assert (S1 : b_cases s1 = b_cases s /\ b_def s1 = b_def s).
      { unfold s1, asm_case. destruct asm; [|auto]. destruct nx; [destruct (b_multi s =? 0)|destruct (1 <=? b_multi s)]; auto. }
      destruct S1 as [S1 S2].
      pose proof (case_values_run c8 (v :: vs) s1) as CR. rewrite S1, S2 in CR.
      destruct (case_values c8 s1 (v :: vs)) as [s2| |].
      * destruct CR as (A1 & A2 & A3). specialize (IH s2 (A3 ND)). rewrite A1, A2 in IH.
        rewrite map_app, app_assoc. cbn [defaults].
        destruct (items asm c8 s2 r) as [s3| |].
        -- destruct IH as (B1 & B2 & B3). split; [exact B1|]. split; [|exact B3].
           intros [K|K]; [discriminate|apply B2; exact K].
        -- destruct IH as [B|[B|B]]; [left; exact B|right; left; right; exact B|right; right; exact B].
        -- exact IH.
      * left. intro K. apply CR. rewrite map_app, app_assoc in K. apply nodup_app_l in K. exact K.
      * exact CR.
    + cbn [one_item all_values defaults]. unfold default. destruct (b_def s) eqn:BD.
      * right. right. right. split; [discriminate|]. pose proof (D0 r). lia.
      * match goal with |- match items asm c8 ?t r with _ => _ end => set (s1 := t) end.
        assert (C1 : b_cases s1 = b_cases s) by reflexivity.
        assert (E1 : b_def s1 <> None) by discriminate. clearbody s1.
        specialize (IH s1). rewrite C1 in IH. specialize (IH ND).
        destruct (items asm c8 s1 r) as [s3| |].
        -- destruct IH as (B1 & B2 & B3 & B4). specialize (B4 E1). split; [exact B1|].
           split; [intros [K|K]; [discriminate|apply B2; exact K]|]. split; intros; [lia|congruence].
        -- destruct IH as [B|[B|[B|[_ B]]]]; [left; exact B|right; left; right; exact B|right; right; left; lia|right; right; left; lia].
        -- exact IH.
    + cbn [one_item all_values defaults].
      match goal with |- match items asm c8 ?t r with _ => _ end => specialize (IH t ND); destruct (items asm c8 t r) as [s3| |] end;
        cbn [b_cases b_def] in IH.
      * destruct IH as (B1 & B2 & B3). split; [exact B1|]. split; [|exact B3].
        intros [K|K]; [discriminate|apply B2; exact K].
      * destruct IH as [B|[B|B]]; [left; exact B|right; left; right; exact B|right; right; exact B].
      * exact IH.
    + cbn [one_item all_values defaults].
      match goal with |- match items asm c8 ?t r with _ => _ end => specialize (IH t ND); destruct (items asm c8 t r) as [s3| |] end;
        cbn [b_cases b_def] in IH.
      * destruct IH as (B1 & B2 & B3). split; [exact B1|]. split; [|exact B3].
        intros [K|K]; [discriminate|apply B2; exact K].
      * destruct IH as [B|[B|B]]; [left; exact B|right; left; right; exact B|right; right; exact B].
      * exact IH.
    + cbn [one_item all_values defaults].
      match goal with |- match items asm c8 ?t r with _ => _ end => specialize (IH t ND); destruct (items asm c8 t r) as [s3| |] end;
        cbn [b_cases b_def] in IH.
      * destruct IH as (B1 & B2 & B3). split; [exact B1|]. split; [|exact B3].
        intros [K|K]; [discriminate|apply B2; exact K].
      * destruct IH as [B|[B|B]]; [left; exact B|right; left; right; exact B|right; right; exact B].
      * exact IH.
Qed.

Theorem compile_accepts : forall asm c8 cnt l,
  (well_formed c8 l -> exists p, compile asm c8 cnt l = Ok p /\ p_exit p = cnt + 3 /\
     map fst (p_cases p) = map (swrap (bits c8)) (all_values l)) /\
  (~ well_formed c8 l -> compile asm c8 cnt l = Err).
Proof.
  intros asm c8 cnt l. pose proof (items_run asm c8 l (start cnt) (NoDup_nil Z)) as H.
  cbn [start b_cases b_def map app] in H. unfold compile, well_formed. rewrite <- nodup_values.
  fold (start cnt) in H |- *.
  assert (V : forall s, items asm c8 (start cnt) l = Ok s ->
     map fst (b_cases s) = map (swrap (bits c8)) (all_values l)).
  { assert (GEN : forall l s s', items asm c8 s l = Ok s' ->
       map fst (b_cases s') = map fst (b_cases s) ++ map (case_value c8) (all_values l)).
    { clear. induction l as [|i r IH]; intros s s' H; cbn [items] in H.
      - assert (s = s') by congruence. subst. cbn. rewrite app_nil_r. reflexivity.
      - set (nx := match r with j :: _ => is_case j | [] => false end) in H.
        destruct (one_item asm c8 s i nx) as [s1| |] eqn:E; try discriminate.
        rewrite (IH s1 s' H). destruct i as [vs| | |id|id k]; cbn [one_item] in E.
        + destruct vs as [|v vs]; [discriminate|]. cbn [all_values]. rewrite map_app, app_assoc.
          set (s2 := if asm then asm_case nx s else s) in E.
          assert (S1 : b_cases s2 = b_cases s).
          { unfold s2, asm_case. destruct asm; [|auto]. destruct nx; [destruct (b_multi s =? 0)|destruct (1 <=? b_multi s)]; auto. }
          pose proof (case_values_run c8 (v :: vs) s2) as CR.
          assert (E' : case_values c8 s2 (v :: vs) = Ok s1) by exact E. rewrite E' in CR.
          destruct CR as (_ & A2 & _). rewrite A2, S1. reflexivity.
        + unfold default in E. destruct (b_def s); [discriminate|].
          assert (G : forall a b : bst, Ok a = Ok b -> a = b) by congruence. apply G in E. subst s1. reflexivity.
        + assert (G : forall a b : bst, Ok a = Ok b -> a = b) by congruence. apply G in E. subst s1. reflexivity.
        + assert (G : forall a b : bst, Ok a = Ok b -> a = b) by congruence. apply G in E. subst s1. reflexivity.
        + assert (G : forall a b : bst, Ok a = Ok b -> a = b) by congruence. apply G in E. subst s1. reflexivity. }
    intros s IT. rewrite (GEN l _ _ IT). cbn [start b_cases map app]. apply map_ext.
    intro z. destruct c8; reflexivity. }
  destruct (items asm c8 (start cnt) l) as [s| |].
  - cbn [bindr]. split.
    + intros _. eexists. split; [reflexivity|]. split; [reflexivity|]. cbn [p_cases]. apply V. reflexivity.
    + intros N. exfalso. apply N. destruct H as (A & B & C & _). split; [exact A|]. split; [exact B|].
      apply C. reflexivity.
  - cbn [bindr]. split; [|reflexivity]. intros (A & B & C). exfalso.
    destruct H as [H|[H|[H|[H _]]]]; [tauto|tauto|lia|congruence].
  - destruct H.
Qed.
