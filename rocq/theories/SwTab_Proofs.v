(** Proofs about the tables which .ENDSWITCH writes. *)
From Coq Require Import ZArith List Bool Lia.
From Verif Require Import Base Switch_Model Switch_Spec SwSort_Proofs.
Import ListNotations.
Open Scope Z_scope.

(** ** Lines *)

Definition val (t : tok) : Prop := t <> TC.

Fixpoint cseps (l : list tok) : list tok :=
  match l with [] => [] | x :: r => TC :: x :: cseps r end.

Definition seps (l : list tok) : list tok :=
  match l with [] => [] | x :: r => x :: cseps r end.

Lemma cseps_app : forall a b, cseps (a ++ b) = cseps a ++ cseps b.
Proof. induction a; intros; cbn; [reflexivity|]. rewrite IHa. reflexivity. Qed.

Lemma seps_snoc : forall l x, l <> [] -> seps l ++ [TC; x] = seps (l ++ [x]).
Proof.
  intros [|y l] x H; [congruence|]. cbn. rewrite cseps_app. reflexivity.
Qed.

Lemma read_cseps : forall l, Forall val l -> read_line false (cseps l) = Ok l.
Proof.
  intros l F. induction F as [|x l V F IH]; cbn; [reflexivity|].
  unfold val in V. destruct x; [congruence| |]; cbn; rewrite IH; reflexivity.
Qed.

Lemma read_seps : forall l, l <> [] -> Forall val l -> read_line true (seps l) = Ok l.
Proof.
  intros [|x l] N F; [congruence|]. apply Forall_cons_iff in F as [V F]. cbn [seps read_line].
  unfold val in V. destruct x; [congruence| |]; rewrite (read_cseps l F); reflexivity.
Qed.

Lemma read_lines_app : forall a b x y, read_lines a = Ok x -> read_lines b = Ok y ->
  read_lines (a ++ b) = Ok (x ++ y).
Proof.
  induction a as [|l a IH]; intros b x y A B; cbn in *.
  - injection A as <-. exact B.
  - destruct (read_line true l) as [u| |]; cbn in *; try discriminate.
    destruct (read_lines a) as [v| |] eqn:E; cbn in *; try discriminate.
    injection A as <-. rewrite (IH b v y eq_refl B). cbn. rewrite app_assoc. reflexivity.
Qed.

Lemma read_lines_one : forall l, l <> [] -> Forall val l -> read_lines [seps l] = Ok l.
Proof.
  intros l N F. cbn. rewrite (read_seps l N F). cbn. rewrite app_nil_r. reflexivity.
Qed.

(** The buffer contains the entries [E]; [e]: the current line is empty. *)
Definition form (u : buf) (E : list tok) (e : bool) : Prop :=
  Forall val E /\
  exists A B, read_lines (u_lines u) = Ok A /\ E = A ++ B /\
   (if e then B = [] /\ u_txt u = []
    else B <> [] /\ (u_txt u = seps B \/ (u_first u = false /\ u_txt u = TC :: seps B))).

Definition nofix (u : buf) : Prop := match u_txt u with TC :: _ => False | _ => True end.

Lemma form_fresh : form fresh [] true.
Proof. split; [constructor|]. exists [], []. repeat split. Qed.

Lemma form_put1 : forall u E x, form u E true -> val x -> form (put u [x]) (E ++ [x]) false.
Proof.
  intros u E x (V & A & B & H1 & H2 & H3 & H4) VX. split; [apply Forall_app; auto|].
  exists A, [x]. subst B. rewrite app_nil_r in H2. subst E. repeat split; auto; [discriminate|].
  left. cbn. rewrite H4. reflexivity.
Qed.

Lemma form_putc : forall u E x, form u E false -> val x -> form (put u [TC; x]) (E ++ [x]) false.
Proof.
  intros u E x (V & A & B & H1 & H2 & H3 & H4) VX. split; [apply Forall_app; auto|].
  exists A, (B ++ [x]). subst E. rewrite app_assoc. repeat split; auto.
  - intro K. apply app_eq_nil in K as [_ K]. discriminate.
  - cbn [put u_txt u_first]. rewrite <- seps_snoc by exact H3.
    destruct H4 as [->|[F ->]]; [left; reflexivity|right; split; [exact F|reflexivity]].
Qed.

Lemma form_putc0 : forall u E x, form u E true -> u_first u = false -> val x ->
  form (put u [TC; x]) (E ++ [x]) false.
Proof.
  intros u E x (V & A & B & H1 & H2 & H3 & H4) F VX. split; [apply Forall_app; auto|].
  exists A, [x]. subst B. rewrite app_nil_r in H2. subst E. repeat split; auto; [discriminate|].
  right. cbn. rewrite H4. auto.
Qed.

Lemma form_fix4 : forall u E, form u E false -> form (fix4 u) E false /\ nofix (fix4 u).
Proof.
  intros u E (V & A & B & H1 & H2 & H3 & H4).
  assert (T : u_txt (fix4 u) = seps B).
  { cbn. destruct H4 as [->|[-> ->]]; [|reflexivity].
    destruct B as [|x B]; [congruence|]. cbn.
    assert (val x) by (subst E; apply Forall_app in V as [_ V]; apply Forall_cons_iff in V as [V _]; exact V).
    destruct (u_first u), x; unfold val in *; congruence. }
  split.
  - split; [exact V|]. exists A, B. repeat split; auto.
  - unfold nofix. rewrite T. destruct B as [|x B]; [congruence|]. cbn.
    assert (val x) by (subst E; apply Forall_app in V as [_ V]; apply Forall_cons_iff in V as [V _]; exact V).
    destruct x; unfold val in *; try exact Logic.I. congruence.
Qed.

Lemma form_lines : forall u E, form u E false -> nofix u ->
  read_lines (u_lines u ++ [u_txt u]) = Ok E.
Proof.
  intros u E (V & A & B & H1 & H2 & H3 & H4) N.
  assert (T : u_txt u = seps B).
  { destruct H4 as [H4|[_ H4]]; [exact H4|]. unfold nofix in N. rewrite H4 in N. destruct N. }
  rewrite T. subst E. apply Forall_app in V as [VA VB].
  apply read_lines_app; [exact H1|]. apply read_lines_one; assumption.
Qed.

Lemma form_flush : forall u E, form u E false -> nofix u -> form (flush u) E true.
Proof.
  intros u E F N. split; [apply F|]. exists E, []. rewrite app_nil_r.
  repeat split. apply form_lines; assumption.
Qed.

Lemma form_flush4 : forall u E, form u E false -> form (flush (fix4 u)) E true.
Proof.
  intros u E F. apply form_fix4 in F as [F N]. apply form_flush; assumption.
Qed.

Lemma nofix_put : forall u t, nofix u -> u_txt u <> [] -> nofix (put u t).
Proof.
  intros u t N T. unfold nofix in *. cbn. destruct (u_txt u) as [|x l]; [congruence|]. exact N.
Qed.

Lemma form_nonempty : forall u E, form u E false -> u_txt u <> [].
Proof.
  intros u E (V & A & B & H1 & H2 & H3 & H4) K. rewrite K in H4.
  destruct B; [congruence|]. destruct H4 as [H4|[_ H4]]; discriminate.
Qed.

(** ** The jump table of the methods 4 and 7 *)

Fixpoint runs (lbl : Z) (ls : list Z) : list Z :=
  match ls with
  | [] => []
  | l :: r => if l =? lbl then runs l r else l :: runs l r
  end.

Lemma lab_loop_ok : forall ls dcnt lbl acnt u E j,
  (forall i a, nth_error ls i = Some a -> (j + Z.of_nat i) mod 75 = 0 ->
     a <> (match i with O => lbl | S k => nth k ls 0 end)) ->
  0 <= j -> dcnt = (if j =? 0 then 0 else (j - 1) mod 75 + 1) ->
  form u E (dcnt =? 0) -> nofix u ->
  exists d u', lab_loop ls dcnt lbl acnt u = (d, acnt + zlen (runs lbl ls), u') /\
    d = (if j + zlen ls =? 0 then 0 else (j + zlen ls - 1) mod 75 + 1) /\
    form u' (E ++ map TL (runs lbl ls)) (d =? 0) /\ nofix u'.
Proof.
  induction ls as [|l r IH]; intros dcnt lbl acnt u E j FR J D FM NF.
  - exists dcnt, u. cbn [lab_loop runs map]. rewrite app_nil_r.
    change (zlen (@nil Z)) with 0. rewrite !Z.add_0_r. auto.
  - cbn [lab_loop].
    assert (S1 : exists d1 u1, (if 75 <=? dcnt then (0, flush u) else (dcnt, u)) = (d1, u1) /\
        d1 = j mod 75 /\ form u1 E (d1 =? 0) /\ nofix u1).
    { destruct (Z.leb_spec 75 dcnt) as [L|L].
      - destruct (Z.eqb_spec j 0); [lia|].
        exists 0, (flush u). split; [reflexivity|].
        split; [Z.to_euclidean_division_equations; lia|].
        split; [|exact Logic.I].
        destruct (Z.eqb_spec dcnt 0); [lia|]. apply form_flush; assumption.
      - exists dcnt, u. split; [reflexivity|]. split; [|auto].
        destruct (Z.eqb_spec j 0); [subst; reflexivity|].
        Z.to_euclidean_division_equations; lia. }
    destruct S1 as (d1 & u1 & -> & D1 & F1 & N1).
    assert (R : 0 <= d1 < 75) by (Z.to_euclidean_division_equations; lia).
    assert (NX : d1 + 1 = (if j + 1 =? 0 then 0 else (j + 1 - 1) mod 75 + 1)).
    { destruct (Z.eqb_spec (j + 1) 0); [lia|]. rewrite D1. f_equal. f_equal. lia. }
    assert (FR' : forall i a, nth_error r i = Some a -> (j + 1 + Z.of_nat i) mod 75 = 0 ->
        a <> match i with O => l | S k => nth k r 0 end).
    { intros i a Hi Hm. specialize (FR (S i) a Hi).
      replace (j + Z.of_nat (S i)) with (j + 1 + Z.of_nat i) in FR by lia.
      specialize (FR Hm). destruct i; exact FR. }
    assert (ZL : j + zlen (l :: r) = j + 1 + zlen r) by (rewrite zlen_cons; lia).
    rewrite ZL.
    destruct (Z.eqb_spec l lbl) as [EQ|NE].
    + assert (d1 <> 0).
      { intro K. apply (FR O l eq_refl); [|exact EQ]. cbn. rewrite Z.add_0_r. lia. }
      specialize (IH (d1 + 1) l acnt u1 E (j + 1) FR').
      destruct IH as (d & u' & A1 & A2 & A3 & A4); [lia|exact NX| |exact N1|].
      { destruct (Z.eqb_spec (d1 + 1) 0); [lia|]. destruct (Z.eqb_spec d1 0); [lia|exact F1]. }
      exists d, u'. cbn [runs]. rewrite (proj2 (Z.eqb_eq l lbl) EQ). auto.
    + set (u2 := put u1 ((if d1 =? 0 then [] else [TC]) ++ [TL l])).
      assert (F2 : form u2 (E ++ [TL l]) false /\ nofix u2).
      { unfold u2. destruct (Z.eqb_spec d1 0) as [Z0|Z0]; cbn [app].
        - split; [apply form_put1; [exact F1|discriminate]|].
          destruct F1 as (_ & A & B & _ & _ & _ & T). unfold nofix. cbn. rewrite T. exact Logic.I.
        - split; [apply form_putc; [exact F1|discriminate]|].
          apply nofix_put; [exact N1|]. apply (form_nonempty _ E). exact F1. }
      destruct F2 as [F2 N2].
      specialize (IH (d1 + 1) l (acnt + 1) u2 (E ++ [TL l]) (j + 1) FR').
      destruct IH as (d & u' & A1 & A2 & A3 & A4); [lia|exact NX| |exact N2|].
      { destruct (Z.eqb_spec (d1 + 1) 0); [lia|exact F2]. }
      exists d, u'. cbn [runs]. rewrite (proj2 (Z.eqb_neq l lbl) NE). cbn [map].
      rewrite <- app_assoc in A3. cbn in A3. split; [|auto].
      rewrite zlen_cons. rewrite A1. f_equal. f_equal. lia.
Qed.

Lemma as_labels_map : forall l, as_labels (map TL l) = Ok l.
Proof. induction l as [|x l IH]; cbn; [reflexivity|]. rewrite IH. reflexivity. Qed.

Theorem lab_table_ok : forall def ls, ls <> [] -> Forall (fun l => 0 < l) ls ->
  row_start_fresh ls -> zlen ls mod 75 <> 0 ->
  exists t, lab_table def ls = (zlen (runs 0 ls), t) /\ labels_of t = Ok (runs 0 ls ++ [def]).
Proof.
  intros def ls NE PS RF M.
  destruct (lab_loop_ok ls 0 0 0 fresh [] 0) as (d & u & H1 & H2 & H3 & H4).
  - intros i a Hi Hm. destruct i as [|k].
    + intro K. subst a. apply nth_error_In in Hi. rewrite Forall_forall in PS.
      specialize (PS 0 Hi). lia.
    + assert (HP : nth_error ls k = Some (nth k ls 0)).
      { apply nth_error_nth'. assert (S k < length ls)%nat by (apply nth_error_Some; congruence). lia. }
      intro K. apply (RF (Z.of_nat (S k)) (nth k ls 0) a); [lia|exact Hm| | |auto].
      * replace (Z.to_nat (Z.of_nat (S k) - 1)) with k by lia. exact HP.
      * rewrite Nat2Z.id. exact Hi.
  - lia.
  - reflexivity.
  - apply form_fresh.
  - exact Logic.I.
  - cbn [app] in H3. rewrite !Z.add_0_l in *.
    assert (LP : 0 < zlen ls) by (destruct ls; [congruence|rewrite zlen_cons; pose proof (zlen_nonneg ls); lia]).
    destruct (Z.eqb_spec (zlen ls) 0); [lia|].
    assert (DR : 0 < d < 75) by (Z.to_euclidean_division_equations; lia).
    unfold lab_table. rewrite H1.
    destruct (Z.eqb_spec d 0); [lia|]. destruct (Z.ltb_spec d 75); [|lia]. cbn [negb andb].
    eexists. split; [reflexivity|]. unfold labels_of.
    rewrite (form_lines (put u [TC; TL def]) (map TL (runs 0 ls) ++ [TL def])).
    + cbn [bindr]. change [TL def] with (map TL [def]). rewrite <- map_app. apply as_labels_map.
    + apply form_putc; [exact H3|discriminate].
    + apply nofix_put; [exact H4|]. apply (form_nonempty _ _ H3).
Qed.

(** ** The count table *)

(** The numbers which the table has to contain. *)
Fixpoint nums (min : Z) (cs : list (Z * Z)) (n acnt bcnt : Z) : list Z :=
  match cs with
  | [] => []
  | (v, l) :: r =>
      repeat acnt (Z.to_nat (v - min - n)) ++
      bcnt :: nums min r (v - min + 1) acnt
                (match r with (_, m) :: _ => if l =? m then bcnt else bcnt + 1 | [] => bcnt end)
  end.

Lemma gap_ok : forall k acnt dcnt u E, 0 <= dcnt < 75 -> form u E (dcnt =? 0) ->
  exists d u', gap k acnt dcnt u = (d, u') /\ 0 <= d < 75 /\
    form u' (E ++ map TN (repeat acnt k)) (d =? 0) /\
    (u_first u = false -> u_first u' = false) /\
    (d = 0 -> (0 < k)%nat -> u_first u' = false) /\
    (k = O -> d = dcnt /\ u' = u).
Proof.
  induction k as [|k IH]; intros acnt dcnt u E R F; cbn [gap].
  - exists dcnt, u. cbn. rewrite app_nil_r. split; [reflexivity|]. split; [lia|].
    split; [exact F|]. split; [auto|]. split; [lia|auto].
  - set (u1 := put u (if dcnt =? 0 then [TN acnt] else [TC; TN acnt])).
    assert (F1 : form u1 (E ++ [TN acnt]) false).
    { unfold u1. destruct (dcnt =? 0); [apply form_put1|apply form_putc]; auto; discriminate. }
    assert (FI : u_first u1 = u_first u) by reflexivity. clearbody u1.
    destruct (Z.leb_spec 75 (dcnt + 1)) as [L|L].
    + destruct (IH acnt 0 (flush (fix4 u1)) (E ++ [TN acnt])) as (d & u' & H1 & H2 & H3 & H4 & H5 & _).
      * lia.
      * apply form_flush4. exact F1.
      * exists d, u'. cbn [repeat map]. rewrite <- app_assoc in H3.
        split; [exact H1|]. split; [exact H2|]. split; [exact H3|].
        split; [intros _; apply H4; reflexivity|]. split; [intros _ _; apply H4; reflexivity|discriminate].
    + destruct (IH acnt (dcnt + 1) u1 (E ++ [TN acnt])) as (d & u' & H1 & H2 & H3 & H4 & H5 & H6).
      * lia.
      * destruct (Z.eqb_spec (dcnt + 1) 0); [lia|exact F1].
      * exists d, u'. cbn [repeat map]. rewrite <- app_assoc in H3.
        split; [exact H1|]. split; [exact H2|]. split; [exact H3|].
        split; [intro K; apply H4; rewrite FI; exact K|]. split; [|discriminate].
        intros D0 _. destruct k; [|apply H5; [exact D0|lia]].
        destruct (H6 eq_refl). lia.
Qed.

Lemma num_loop_ok : forall w byte min cs n dcnt acnt bcnt u E,
  (forall v l, In (v, l) cs -> place w byte min v = v - min) ->
  asc cs -> (forall v l, In (v, l) cs -> n <= v - min) -> 0 <= n ->
  0 <= dcnt <= 75 -> form u E (dcnt =? 0) -> (dcnt = 0 -> 0 < n -> u_first u = false) ->
  (n = 0 -> dcnt = 0) ->
  exists b u' e, num_loop w byte min cs n dcnt acnt bcnt u = (b, u') /\
    form u' (E ++ map TN (nums min cs n acnt bcnt)) e /\ (cs <> [] -> e = false) /\
    (0 <= bcnt -> 0 <= b <= bcnt + zlen cs).
Proof.
  intros w byte min cs. induction cs as [|[v l] r IH];
    intros n dcnt acnt bcnt u E PL AS LB N0 R F FI ND.
  - cbn. exists bcnt, u, (dcnt =? 0). rewrite app_nil_r. split; [reflexivity|]. split; [exact F|].
    split; [congruence|]. intros. change (zlen (@nil (Z * Z))) with 0. lia.
  - cbn [num_loop nums].
    assert (S1 : exists d1 u1, (if 75 <=? dcnt then (0, flush (fix4 u)) else (dcnt, u)) = (d1, u1) /\
       0 <= d1 < 75 /\ form u1 E (d1 =? 0) /\ (d1 = 0 -> 0 < n -> u_first u1 = false) /\
       (n = 0 -> d1 = 0)).
    { destruct (Z.leb_spec 75 dcnt) as [L|L].
      - exists 0, (flush (fix4 u)). split; [reflexivity|]. split; [lia|].
        split; [|split; [reflexivity|reflexivity]].
        destruct (Z.eqb_spec dcnt 0); [lia|]. apply form_flush4. exact F.
      - exists dcnt, u. split; [reflexivity|]. split; [lia|]. auto. }
    destruct S1 as (d1 & u1 & -> & R1 & F1 & FI1 & ND1).
    rewrite (PL v l) by (left; reflexivity).
    pose proof (LB v l (or_introl eq_refl)) as LV.
    set (k := Z.to_nat (v - min - n)).
    destruct (gap_ok k acnt d1 u1 E R1 F1) as (d2 & u2 & -> & R2 & F2 & K1 & K2 & K3).
    assert (NK : n + Z.of_nat k = v - min) by (unfold k; lia). rewrite NK.
    set (u3 := put u2 (if v - min =? 0 then [TN bcnt] else [TC; TN bcnt])).
    assert (F3 : form u3 (E ++ map TN (repeat acnt k) ++ [TN bcnt]) false).
    { rewrite app_assoc. unfold u3. destruct (Z.eqb_spec (v - min) 0) as [Z0|Z0].
      - destruct K3 as [D2 _]; [unfold k; lia|]. rewrite D2, ND1 in F2 by lia.
        apply form_put1; [exact F2|discriminate].
      - destruct (Z.eqb_spec d2 0) as [D0|D0]; [|apply form_putc; [exact F2|discriminate]].
        apply form_putc0; [exact F2| |discriminate].
        destruct k as [|k']; [|apply K2; [exact D0|lia]].
        destruct (K3 eq_refl) as [D2 ->]. apply FI1; lia. }
    set (b2 := match r with [] => bcnt | (_, m) :: _ => if l =? m then bcnt else bcnt + 1 end).
    inversion AS as [|? ? FA AR]; subst.
    destruct (IH (v - min + 1) (d2 + 1) acnt b2 u3 (E ++ map TN (repeat acnt k) ++ [TN bcnt]))
      as (b & u' & e & H1 & H2 & H3 & H4).
    + intros v' l' I. apply (PL v' l'). right. exact I.
    + exact AR.
    + intros v' l' I. rewrite Forall_forall in FA. specialize (FA _ I). cbn in FA. lia.
    + lia.
    + lia.
    + destruct (Z.eqb_spec (d2 + 1) 0); [lia|exact F3].
    + lia.
    + lia.
    + exists b, u', e. split; [exact H1|]. split; [|split].
      * rewrite <- !app_assoc in H2. cbn [app] in H2. rewrite map_app. cbn [map].
        fold k. exact H2.
      * intros _. destruct r as [|c r]; [|apply H3; discriminate].
        cbn in H1. injection H1 as <- <-.
        destruct e; [|reflexivity]. exfalso.
        destruct H2 as (_ & A & B & _ & _ & _ & T).
        apply (form_nonempty _ _ F3). exact T.
      * intros B0. rewrite zlen_cons. pose proof (zlen_nonneg r).
        assert (bcnt <= b2 <= bcnt + 1) by (unfold b2; destruct r as [|[? m] ?]; [lia|destruct (l =? m); lia]).
        assert (B2 : 0 <= b2) by lia. specialize (H4 B2). lia.
Qed.

(** Numbers below 10^20 written with base 10 are read again. *)
Lemma digits_ok : forall k n, 0 <= n < 10 ^ Z.of_nat k -> (0 < k)%nat -> digits k 10 n = Ok n.
Proof.
  induction k as [|k IH]; intros n R K; [lia|]. cbn [digits].
  assert (0 <= n mod 10 < 10) by (apply Z.mod_pos_bound; lia).
  destruct (Z.leb_spec 10 (n mod 10)); [lia|].
  destruct (Z.ltb_spec n 10); [reflexivity|].
  assert (P : 10 ^ Z.of_nat (S k) = 10 * 10 ^ Z.of_nat k).
  { rewrite Nat2Z.inj_succ, Z.pow_succ_r by lia. reflexivity. }
  destruct k as [|k].
  { cbn in R. lia. }
  rewrite IH; [cbn [bindr]; f_equal; pose proof (Z.div_mod n 10); lia| |lia].
  rewrite P in R. split; [apply Z.div_pos; lia|]. apply Z.div_lt_upper_bound; lia.
Qed.

Lemma read_num_ok : forall n, - 2 ^ 32 < n < 2 ^ 32 -> read_num 10 n = Ok n.
Proof.
  intros n R. unfold read_num.
  assert (P : 2 ^ 32 < 10 ^ Z.of_nat 20) by reflexivity.
  destruct (Z.ltb_spec n 0) as [L|L].
  - rewrite digits_ok by lia. cbn [bindr]. f_equal. lia.
  - apply digits_ok; lia.
Qed.

Lemma as_numbers_ok : forall es l, 0 < es ->
  Forall (fun n => - 2 ^ (8 * es - 1) <= n < 2 ^ (8 * es) /\ - 2 ^ 32 < n < 2 ^ 32) l ->
  as_numbers 10 es (map TN l) = Ok (map (fun n => n mod 2 ^ (8 * es)) l).
Proof.
  intros es l ES F. induction F as [|n l [R1 R2] F IH]; cbn [map as_numbers]; [reflexivity|].
  rewrite (read_num_ok n R2). cbn [bindr].
  destruct (Z.leb_spec (- 2 ^ (8 * es - 1)) n); [|lia].
  destruct (Z.ltb_spec n (2 ^ (8 * es))); [|lia]. cbn [andb].
  rewrite IH. reflexivity.
Qed.

Lemma nums_range : forall min cs n acnt bcnt, 0 <= bcnt -> 0 <= acnt ->
  Forall (fun x => 0 <= x <= Z.max acnt (bcnt + zlen cs)) (nums min cs n acnt bcnt).
Proof.
  intros min cs. induction cs as [|[v l] r IH]; intros n acnt bcnt B A; cbn [nums]; [constructor|].
  rewrite zlen_cons. pose proof (zlen_nonneg r).
  apply Forall_app. split.
  - apply Forall_forall. intros x X. apply repeat_spec in X. lia.
  - constructor; [lia|].
    set (b2 := match r with [] => bcnt | (_, m) :: _ => if l =? m then bcnt else bcnt + 1 end).
    assert (bcnt <= b2 <= bcnt + 1) by (unfold b2; destruct r as [|[? m] ?]; [lia|destruct (l =? m); lia]).
    eapply Forall_impl; [|apply IH; lia]. cbn. intros x X. lia.
Qed.

Lemma runs_len : forall ls lbl, zlen (runs lbl ls) <= zlen ls.
Proof.
  induction ls as [|l r IH]; intros lbl; cbn [runs]; [lia|].
  rewrite zlen_cons. pose proof (IH l). destruct (l =? lbl); rewrite ?zlen_cons; lia.
Qed.

(** The count table: [nums], and for method 7 one number more. *)
Theorem num_table_ok : forall w byte cs,
  (forall v l, In (v, l) cs -> place w byte (mincase cs) v = v - mincase cs) ->
  asc cs -> cs <> [] -> s_radix w = 10 ->
  zlen cs + 1 < (if byte : bool then 256 else 65536) ->
  exists t, numbers_of w (if byte then 1 else 2)
     (num_table w byte (zlen (runs 0 (map snd cs))) cs) =
     Ok (nums (mincase cs) cs 0 (zlen (runs 0 (map snd cs))) 0 ++ t).
Proof.
  intros w byte cs PL AS NE RX SZ.
  set (acnt := zlen (runs 0 (map snd cs))).
  assert (AC : 0 <= acnt <= zlen cs).
  { unfold acnt. split; [apply zlen_nonneg|].
    replace (zlen cs) with (zlen (map snd cs)) by (unfold zlen; rewrite map_length; reflexivity).
    apply runs_len. }
  destruct (num_loop_ok w byte (mincase cs) cs 0 0 acnt 0 fresh []) as (b & u & e & H1 & H2 & H3 & H4).
  - exact PL.
  - exact AS.
  - intros v l I. destruct cs as [|c cs]; [destruct I|]. cbn [mincase].
    inversion AS as [|? ? F _]; subst. rewrite Forall_forall in F.
    destruct I as [->|I]; [cbn; lia|]. specialize (F _ I). cbn in F. lia.
  - lia.
  - lia.
  - apply form_fresh.
  - lia.
  - reflexivity.
  - specialize (H3 NE). subst e. cbn [app] in H2. specialize (H4 ltac:(lia)).
    apply form_fix4 in H2 as [H2 N2]. unfold num_table. rewrite H1.
    pose proof (nums_range (mincase cs) cs 0 acnt 0 ltac:(lia) ltac:(lia)) as NR.
    set (ns := nums (mincase cs) cs 0 acnt 0) in *. clearbody ns acnt.
    pose proof (zlen_nonneg cs).
    unfold numbers_of. rewrite RX.
    destruct byte.
    + rewrite (form_lines _ _ H2 N2). cbn [bindr].
      exists []. rewrite app_nil_r. rewrite as_numbers_ok; [|lia|].
      * f_equal. rewrite <- (map_id ns) at 2. apply map_ext_in. intros x X.
        rewrite Forall_forall in NR. specialize (NR x X). apply Z.mod_small. lia.
      * eapply Forall_impl; [|exact NR]. cbn. intros x X.
        change (2 ^ (8 * 1 - 1)) with 128. change (2 ^ (8 * 1)) with 256.
        change (2 ^ 32) with 4294967296. lia.
    + rewrite (form_lines (put (fix4 u) [TC; TN b]) (map TN ns ++ [TN b])).
      2:{ apply form_putc; [exact H2|discriminate]. }
      2:{ apply nofix_put; [exact N2|]. apply (form_nonempty _ _ H2). }
      cbn [bindr]. exists [b]. change [TN b] with (map TN [b]). rewrite <- map_app.
      rewrite as_numbers_ok; [|lia|].
      * f_equal. rewrite <- (map_id (ns ++ [b])) at 2. apply map_ext_in. intros x X.
        rewrite Forall_forall in NR. change (2 ^ (8 * 2)) with 65536.
        apply in_app_iff in X as [X|[<-|[]]]; [specialize (NR x X)|]; apply Z.mod_small; lia.
      * apply Forall_app. split; [|constructor; [|constructor]].
        -- eapply Forall_impl; [|exact NR]. cbn. intros x X.
           change (2 ^ (8 * 2 - 1)) with 32768. change (2 ^ (8 * 2)) with 65536.
           change (2 ^ 32) with 4294967296. lia.
        -- change (2 ^ (8 * 2 - 1)) with 32768. change (2 ^ (8 * 2)) with 65536.
           change (2 ^ 32) with 4294967296. lia.
Qed.

(** ** What the two tables mean *)

Lemma nth_repeat_app : forall (A : Type) (x : A) k l i, (i < k)%nat ->
  nth_error (repeat x k ++ l) i = Some x.
Proof.
  intros A x k l i H. rewrite nth_error_app1 by (rewrite repeat_length; exact H).
  apply nth_error_repeat. exact H.
Qed.

Lemma nums_nth : forall min cs n acnt bcnt, asc cs ->
  (forall v l, In (v, l) cs -> n <= v - min) ->
  (forall v l, In (v, l) cs ->
     exists i, nth_error (nums min cs n acnt bcnt) (Z.to_nat (v - min - n)) = Some (bcnt + Z.of_nat i) /\
       nth_error (match cs with (_, m) :: r => m :: runs m (map snd r) | [] => [] end) i = Some l) /\
  (forall v, n <= v - min -> (exists c, In c cs /\ v <= fst c) -> ~ In v (map fst cs) ->
     nth_error (nums min cs n acnt bcnt) (Z.to_nat (v - min - n)) = Some acnt).
Proof.
  intros min cs. induction cs as [|[v l] r IH]; intros n acnt bcnt AS LB.
  - split; [intros v l []|]. intros v _ (c & [] & _).
  - inversion AS as [|? ? FA AR]; subst. rewrite Forall_forall in FA. cbn in FA.
    cbn [nums].
    set (k := Z.to_nat (v - min - n)).
    set (b2 := match r with [] => bcnt | (_, m) :: _ => if l =? m then bcnt else bcnt + 1 end).
    pose proof (LB v l (or_introl eq_refl)) as LV.
    assert (LR : forall v' l', In (v', l') r -> v - min + 1 <= v' - min)
      by (intros v' l' I; specialize (FA _ I); cbn in FA; lia).
    destruct (IH (v - min + 1) acnt b2 AR LR) as [I1 I2].
    assert (TAIL : forall v', v < v' -> nth_error (repeat acnt k ++ bcnt :: nums min r (v - min + 1) acnt b2)
        (Z.to_nat (v' - min - n)) =
        nth_error (nums min r (v - min + 1) acnt b2) (Z.to_nat (v' - min - (v - min + 1)))).
    { intros v' V. rewrite nth_error_app2 by (rewrite repeat_length; unfold k; lia).
      rewrite repeat_length.
      replace (Z.to_nat (v' - min - n) - k)%nat with (S (Z.to_nat (v' - min - (v - min + 1))))
        by (unfold k; lia). reflexivity. }
    split.
    + intros v' l' [E|I].
      * apply pair_equal_spec in E as [<- <-]. exists O.
        rewrite nth_error_app2 by (rewrite repeat_length; fold k; lia).
        rewrite repeat_length. fold k. rewrite Nat.sub_diag. cbn.
        split; [f_equal; lia|reflexivity].
      * pose proof (FA _ I) as V. cbn in V. destruct (I1 v' l' I) as (i & J1 & J2).
        rewrite TAIL by exact V. rewrite J1.
        destruct r as [|[v2 m] r]; [destruct I|]. cbn [map snd runs]. unfold b2.
        destruct (Z.eqb_spec m l) as [->|NE].
        -- rewrite Z.eqb_refl. exists i. split; [reflexivity|exact J2].
        -- destruct (Z.eqb_spec l m); [congruence|]. exists (S i).
           split; [f_equal; lia|exact J2].
    + intros v' LO (c & C1 & C2) NI.
      assert (v' <> v) by (intros ->; apply NI; left; reflexivity).
      destruct (Z.lt_ge_cases v' v) as [L|G].
      * apply nth_repeat_app. unfold k. lia.
      * rewrite TAIL by lia. apply I2; [lia| |].
        -- destruct C1 as [<-|C1]; [cbn in C2; lia|]. exists c. auto.
        -- intro K. apply NI. right. exact K.
Qed.

Lemma nums_len : forall min cs n acnt bcnt, asc cs ->
  (forall v l, In (v, l) cs -> n <= v - min) -> cs <> [] ->
  zlen (nums min cs n acnt bcnt) = maxcase cs - min + 1 - n.
Proof.
  intros min cs. induction cs as [|[v l] r IH]; intros n acnt bcnt AS LB NE; [congruence|].
  inversion AS as [|? ? FA AR]; subst. rewrite Forall_forall in FA. cbn in FA.
  pose proof (LB v l (or_introl eq_refl)) as LV.
  cbn [nums]. rewrite zlen_app, zlen_cons.
  assert (RL : zlen (repeat acnt (Z.to_nat (v - min - n))) = v - min - n)
    by (unfold zlen; rewrite repeat_length; lia).
  rewrite RL. destruct r as [|c r].
  - cbn. change (zlen (@nil Z)) with 0. lia.
  - rewrite IH; [|exact AR| |discriminate].
    + unfold maxcase. cbn [last]. lia.
    + intros v' l' I. specialize (FA _ I). cbn in FA. lia.
Qed.

(** ** The tables of method 5 *)

Lemma row_loop_ok : forall max ts dcnt u E, 0 < max -> Forall val ts -> 0 <= dcnt <= max ->
  form u E (dcnt =? 0) ->
  exists e, form (row_loop max ts dcnt u) (E ++ ts) e /\
    (ts <> [] \/ dcnt <> 0 -> e = false).
Proof.
  intros max ts. induction ts as [|t r IH]; intros dcnt u E M V R F; cbn [row_loop].
  - exists (dcnt =? 0). rewrite app_nil_r. split; [exact F|]. intros [K|K]; [congruence|].
    apply Z.eqb_neq. exact K.
  - apply Forall_cons_iff in V as [V1 V2].
    assert (S1 : exists d1 u1, (if max <=? dcnt then (0, flush (fix4 u)) else (dcnt, u)) = (d1, u1) /\
       0 <= d1 < max /\ form u1 E (d1 =? 0)).
    { destruct (Z.leb_spec max dcnt) as [L|L].
      - exists 0, (flush (fix4 u)). split; [reflexivity|]. split; [lia|].
        destruct (Z.eqb_spec dcnt 0); [lia|]. apply form_flush4. exact F.
      - exists dcnt, u. split; [reflexivity|]. split; [lia|exact F]. }
    destruct S1 as (d1 & u1 & -> & R1 & F1).
    assert (F2 : form (put u1 (if d1 =? 0 then [t] else [TC; t])) (E ++ [t]) (d1 + 1 =? 0)).
    { destruct (Z.eqb_spec (d1 + 1) 0); [lia|].
      destruct (d1 =? 0); [apply form_put1|apply form_putc]; assumption. }
    destruct (IH (d1 + 1) _ (E ++ [t]) M V2 ltac:(lia) F2) as (e & G1 & G2).
    exists e. rewrite <- app_assoc in G1. split; [exact G1|]. intros _. apply G2. right. lia.
Qed.

Theorem row_table_ok : forall max ts, 0 < max -> Forall val ts -> ts <> [] ->
  read_lines (row_table max ts) = Ok ts.
Proof.
  intros max ts M V N.
  destruct (row_loop_ok max ts 0 fresh [] M V ltac:(lia) form_fresh) as (e & F & E).
  rewrite (E (or_introl N)) in F. apply form_fix4 in F as [F NF].
  apply (form_lines _ _ F NF).
Qed.

(** ** The table of method 6 *)

Definition form10 (u : buf) (E : list tok) (d : Z) : Prop :=
  Forall val E /\
  exists A B, read_lines (u_lines u) = Ok A /\ E = A ++ B /\ u_txt u = cseps B /\
    (d = 0 -> B = []) /\ (0 < d -> B <> []).

Lemma form10_put : forall u E d d' x, form10 u E d -> val x -> 0 < d' ->
  form10 (put u [TC; x]) (E ++ [x]) d'.
Proof.
  intros u E d d' x (V & A & B & H1 & H2 & H3 & H4) VX D. split; [apply Forall_app; auto|].
  exists A, (B ++ [x]). subst E. rewrite app_assoc. split; [exact H1|]. split; [reflexivity|].
  split; [cbn; rewrite H3, cseps_app; reflexivity|]. split; [lia|].
  intros _ K. apply app_eq_nil in K as [_ K]. discriminate.
Qed.

Lemma form10_fix : forall u B, u_txt u = cseps B -> B <> [] -> u_txt (fix10 u) = seps B.
Proof.
  intros u [|x B] T N; [congruence|]. cbn. rewrite T. cbn. destruct (u_first u); reflexivity.
Qed.

Lemma form10_lines : forall u E d, form10 u E d -> 0 < d ->
  read_lines (u_lines (fix10 u) ++ [u_txt (fix10 u)]) = Ok E.
Proof.
  intros u E d (V & A & B & H1 & H2 & H3 & _ & H4) D. specialize (H4 D).
  rewrite (form10_fix u B H3 H4). subst E. apply Forall_app in V as [VA VB].
  apply read_lines_app; [exact H1|]. apply read_lines_one; assumption.
Qed.

Lemma form10_flush : forall u E d, form10 u E d -> 0 < d -> form10 (flush (fix10 u)) E 0.
Proof.
  intros u E d F D. pose proof (form10_lines u E d F D) as L. split; [apply F|].
  exists E, []. rewrite app_nil_r. split; [exact L|]. split; [reflexivity|].
  split; [reflexivity|]. split; [reflexivity|lia].
Qed.

Lemma form10_fresh : form10 fresh [] 0.
Proof.
  split; [constructor|]. exists [], []. split; [reflexivity|]. split; [reflexivity|].
  split; [reflexivity|]. split; [reflexivity|lia].
Qed.

(** The labels which the table has to contain. *)
Fixpoint jlabs (def min : Z) (cs : list (Z * Z)) (n : Z) : list Z :=
  match cs with
  | [] => []
  | (v, l) :: r => repeat def (Z.to_nat (v - min - n)) ++ l :: jlabs def min r (v - min + 1)
  end.

(** How much room an entry of a gap takes in the count of the line. *)
Definition cost (is64 : bool) : Z := if is64 then 2 else 1.

Lemma gap6_ok : forall is64 k def dcnt u E, 0 <= dcnt ->
  dcnt + cost is64 * Z.of_nat k <= 75 -> form10 u E dcnt ->
  exists u', gap6 is64 k def dcnt u = (dcnt + cost is64 * Z.of_nat k, u') /\
    form10 u' (E ++ map TL (repeat def k)) (dcnt + cost is64 * Z.of_nat k) /\
    u_first u' = u_first u.
Proof.
  intros is64. induction k as [|k IH]; intros def dcnt u E D0 D F.
  - exists u. cbn [gap6 repeat map]. rewrite app_nil_r. rewrite Nat2Z.inj_0, Z.mul_0_r, Z.add_0_r. auto.
  - assert (CP : 1 <= cost is64 <= 2) by (destruct is64; cbn; lia).
    assert (F1 : form10 (put u [TC; TL def]) (E ++ [TL def]) (dcnt + cost is64)).
    { apply (form10_put u E dcnt); [exact F|discriminate|lia]. }
    destruct (IH def (dcnt + cost is64) (put u [TC; TL def]) (E ++ [TL def])) as (u' & H1 & H2 & H3);
      [lia|nia|exact F1|].
    exists u'. rewrite <- app_assoc in H2. cbn [repeat map].
    replace (dcnt + cost is64 * Z.of_nat (S k)) with (dcnt + cost is64 + cost is64 * Z.of_nat k) by lia.
    split; [|split; [exact H2|exact H3]].
    rewrite <- H1. cbn [gap6]. destruct is64; cbn [cost] in *.
    + destruct (Z.leb_spec dcnt 75); [reflexivity|lia].
    + destruct (Z.ltb_spec dcnt 75); [reflexivity|lia].
Qed.

(** The count of the line at the end of the cases. *)
Fixpoint total (is64 : bool) (min : Z) (cs : list (Z * Z)) (n : Z) : Z :=
  match cs with
  | [] => 0
  | (v, _) :: r => cost is64 * (v - min - n) + 1 + total is64 min r (v - min + 1)
  end.

Lemma total_nonneg : forall is64 min cs n, asc cs -> (forall v l, In (v, l) cs -> n <= v - min) ->
  0 <= total is64 min cs n.
Proof.
  intros is64 min cs. induction cs as [|[v l] r IH]; intros n AS LB; cbn [total]; [lia|].
  inversion AS as [|? ? FA AR]; subst. rewrite Forall_forall in FA. cbn in FA.
  pose proof (LB v l (or_introl eq_refl)).
  assert (0 <= total is64 min r (v - min + 1)).
  { apply IH; [exact AR|]. intros v' l' I. specialize (FA _ I). cbn in FA. lia. }
  assert (1 <= cost is64) by (destruct is64; cbn; lia). nia.
Qed.

(** One line is enough. *)
Lemma jump_loop_short : forall w min cs n dcnt u E,
  (forall v l, In (v, l) cs -> place w false min v = v - min) ->
  asc cs -> (forall v l, In (v, l) cs -> n <= v - min) -> 0 <= n -> 0 <= dcnt ->
  dcnt + total (s_64 w) min cs n <= 75 -> form10 u E dcnt ->
  exists u', jump_loop w min cs n dcnt u = (dcnt + total (s_64 w) min cs n, u') /\
    form10 u' (E ++ map TL (jlabs (s_def w) min cs n)) (dcnt + total (s_64 w) min cs n).
Proof.
  intros w min cs. induction cs as [|[v l] r IH]; intros n dcnt u E PL AS LB N0 D0 D F.
  - cbn in *. exists u. rewrite app_nil_r, Z.add_0_r. auto.
  - inversion AS as [|? ? FA AR]; subst. rewrite Forall_forall in FA. cbn in FA.
    pose proof (LB v l (or_introl eq_refl)) as LV.
    assert (LR : forall v' l', In (v', l') r -> v - min + 1 <= v' - min)
      by (intros v' l' I; specialize (FA _ I); cbn in FA; lia).
    pose proof (total_nonneg (s_64 w) min r (v - min + 1) AR LR) as TN.
    cbn [total] in D.
    assert (CP : 1 <= cost (s_64 w) <= 2) by (destruct (s_64 w); cbn; lia).
    set (k := Z.to_nat (v - min - n)).
    assert (KE : v - min - n = Z.of_nat k) by (unfold k; lia).
    rewrite KE in D.
    cbn [jump_loop jlabs total]. rewrite (PL v l) by (left; reflexivity). fold k.
    destruct (Z.leb_spec 75 dcnt) as [L|L]; [nia|].
    destruct (gap6_ok (s_64 w) k (s_def w) dcnt u E D0) as (u1 & -> & F1 & _); [nia|exact F|].
    assert (NK : n + Z.of_nat k = v - min) by lia. rewrite NK, KE.
    set (d1 := dcnt + cost (s_64 w) * Z.of_nat k) in *.
    assert (RM : room6 (s_64 w) d1 = true).
    { unfold room6. destruct (s_64 w); [apply Z.leb_le|apply Z.ltb_lt]; lia. }
    rewrite RM.
    destruct (IH (v - min + 1) (d1 + 1) (put u1 [TC; TL l]) ((E ++ map TL (repeat (s_def w) k)) ++ [TL l]))
      as (u' & H1 & H2).
    + intros v' l' I. apply (PL v' l'). right. exact I.
    + exact AR.
    + exact LR.
    + lia.
    + unfold d1; nia.
    + lia.
    + apply (form10_put u1 _ d1); [exact F1|discriminate|unfold d1; nia].
    + exists u'. rewrite H1. rewrite <- !app_assoc in H2. cbn [app] in H2.
      rewrite map_app. cbn [map].
      replace (dcnt + (cost (s_64 w) * Z.of_nat k + 1 + total (s_64 w) min r (v - min + 1)))
        with (d1 + 1 + total (s_64 w) min r (v - min + 1)) by lia.
      split; [reflexivity|exact H2].
Qed.

(** No gaps: any number of lines. *)
Lemma jump_loop_dense : forall w min cs n dcnt u E,
  (forall v l, In (v, l) cs -> place w false min v = v - min) ->
  (forall i c, nth_error cs i = Some c -> fst c - min = n + Z.of_nat i) ->
  0 <= dcnt <= 75 -> form10 u E dcnt ->
  exists d u', jump_loop w min cs n dcnt u = (d, u') /\ 0 <= d <= 75 /\
    form10 u' (E ++ map TL (map snd cs)) d.
Proof.
  intros w min cs. induction cs as [|[v l] r IH]; intros n dcnt u E PL SQ D F.
  - exists dcnt, u. cbn. rewrite app_nil_r. auto.
  - cbn [jump_loop]. rewrite (PL v l) by (left; reflexivity).
    pose proof (SQ O (v, l) eq_refl) as V. cbn [fst] in V. rewrite Nat2Z.inj_0, Z.add_0_r in V.
    rewrite V. rewrite Z.sub_diag. cbn [Z.to_nat gap6].
    assert (S1 : exists d1 u1, (if 75 <=? dcnt then (0, flush (fix10 u)) else (dcnt, u)) = (d1, u1) /\
       0 <= d1 < 75 /\ form10 u1 E d1).
    { destruct (Z.leb_spec 75 dcnt) as [L|L].
      - exists 0, (flush (fix10 u)). split; [reflexivity|]. split; [lia|].
        apply (form10_flush u E dcnt); [exact F|lia].
      - exists dcnt, u. split; [reflexivity|]. split; [lia|exact F]. }
    destruct S1 as (d1 & u1 & -> & R1 & F1). cbn [gap6].
    assert (RM : room6 (s_64 w) d1 = true).
    { unfold room6. destruct (s_64 w); [apply Z.leb_le|apply Z.ltb_lt]; lia. }
    rewrite RM. change (Z.of_nat 0) with 0. rewrite Z.add_0_r.
    destruct (IH (n + 1) (d1 + 1) (put u1 [TC; TL l]) (E ++ [TL l])) as (d & u' & H1 & H2 & H3).
    + intros v' l' I. apply (PL v' l'). right. exact I.
    + intros i c C. specialize (SQ (S i) c C). lia.
    + lia.
    + apply (form10_put u1 E d1); [exact F1|discriminate|lia].
    + exists d, u'. rewrite <- app_assoc in H3. split; [exact H1|]. split; [exact H2|exact H3].
Qed.

Lemma jlabs_dense : forall def min cs n,
  (forall i c, nth_error cs i = Some c -> fst c - min = n + Z.of_nat i) ->
  jlabs def min cs n = map snd cs.
Proof.
  intros def min cs. induction cs as [|[v l] r IH]; intros n SQ; cbn [jlabs map snd]; [reflexivity|].
  pose proof (SQ O (v, l) eq_refl) as V. cbn [fst] in V. rewrite Nat2Z.inj_0, Z.add_0_r in V.
  rewrite V, Z.sub_diag. cbn [Z.to_nat repeat app]. f_equal. apply IH.
  intros i c C. specialize (SQ (S i) c C). lia.
Qed.

Lemma jump_end : forall w d u E, 0 <= d <= 75 -> form10 u E d ->
  read_lines (let u := put u [TC; TL (s_def w)] in
    let u := if room6 (s_64 w) d then u else flush (fix10 u) in
    let u := fix10 u in
    if negb (s_64 w) && negb (u_first u) && (match u_txt u with [] => true | _ => false end)
    then u_lines u else u_lines u ++ [u_txt u]) = Ok (E ++ [TL (s_def w)]).
Proof.
  intros w d u E R F.
  pose proof (form10_put u E d 1 (TL (s_def w)) F ltac:(discriminate) ltac:(lia)) as F1.
  set (u1 := put u [TC; TL (s_def w)]) in *. cbv zeta.
  pose proof (form10_lines u1 _ 1 F1 ltac:(lia)) as L.
  destruct (room6 (s_64 w) d) eqn:RM.
  - destruct F1 as (V & A & B & H1 & H2 & H3 & _ & H4). specialize (H4 ltac:(lia)).
    pose proof (form10_fix u1 B H3 H4) as T. rewrite T in *.
    destruct B as [|x B]; [congruence|]. cbn [seps]. rewrite andb_false_r. exact L.
  - unfold room6 in RM. destruct (s_64 w).
    + apply Z.leb_gt in RM. lia.
    + cbn. exact L.
Qed.

Theorem jump_table_ok : forall w cs,
  (forall v l, In (v, l) cs -> place w false (mincase cs) v = v - mincase cs) ->
  asc cs -> cs <> [] ->
  (total (s_64 w) (mincase cs) cs 0 <= 75 \/
   (forall i c, nth_error cs i = Some c -> fst c - mincase cs = Z.of_nat i)) ->
  labels_of (jump_table w cs) = Ok (jlabs (s_def w) (mincase cs) cs 0 ++ [s_def w]).
Proof.
  intros w cs PL AS NE H.
  assert (X : exists d u, jump_loop w (mincase cs) cs 0 0 fresh = (d, u) /\ 0 <= d <= 75 /\
     form10 u (map TL (jlabs (s_def w) (mincase cs) cs 0)) d).
  { destruct H as [H|H].
    - assert (LB : forall v l, In (v, l) cs -> 0 <= v - mincase cs).
      { intros v l I. destruct cs as [|c cs]; [destruct I|]. cbn [mincase].
        inversion AS as [|? ? F _]; subst. rewrite Forall_forall in F.
        destruct I as [->|I]; [cbn; lia|]. specialize (F _ I). cbn in F. lia. }
      destruct (jump_loop_short w (mincase cs) cs 0 0 fresh [] PL AS LB) as (u & H1 & H2);
        [lia|lia|lia|exact form10_fresh|].
      exists (0 + total (s_64 w) (mincase cs) cs 0), u. split; [exact H1|]. split; [|exact H2].
      pose proof (total_nonneg (s_64 w) (mincase cs) cs 0 AS LB). lia.
    - destruct (jump_loop_dense w (mincase cs) cs 0 0 fresh [] PL) as (d & u & H1 & H2 & H3).
      + intros i c C. rewrite Z.add_0_l. apply H. exact C.
      + lia.
      + exact form10_fresh.
      + exists d, u. split; [exact H1|]. split; [exact H2|].
        rewrite jlabs_dense; [exact H3|]. intros i c C. rewrite Z.add_0_l. apply H. exact C. }
  destruct X as (d & u & H1 & H2 & H3). unfold labels_of, jump_table. rewrite H1.
  pose proof (jump_end w d u _ H2 H3) as J. cbv zeta in J |- *. rewrite J. cbn [bindr].
  change [TL (s_def w)] with (map TL [s_def w]). rewrite <- map_app. apply as_labels_map.
Qed.

Lemma jlabs_nth : forall def min cs n, asc cs ->
  (forall v l, In (v, l) cs -> n <= v - min) ->
  forall v, n <= v - min -> (exists c, In c cs /\ v <= fst c) ->
  nth_error (jlabs def min cs n) (Z.to_nat (v - min - n)) = Some (pick def cs v).
Proof.
  intros def min cs. induction cs as [|[x l] r IH]; intros n AS LB v LO (c & C1 & C2); [destruct C1|].
  inversion AS as [|? ? FA AR]; subst. rewrite Forall_forall in FA. cbn in FA.
  pose proof (LB x l (or_introl eq_refl)) as LV.
  assert (LR : forall v' l', In (v', l') r -> x - min + 1 <= v' - min)
    by (intros v' l' I; specialize (FA _ I); cbn in FA; lia).
  cbn [jlabs pick].
  destruct (Z.eqb_spec x v) as [->|NE].
  - rewrite nth_error_app2 by (rewrite repeat_length; lia).
    rewrite repeat_length, Nat.sub_diag. reflexivity.
  - destruct (Z.lt_ge_cases v x) as [L|G].
    + rewrite nth_repeat_app by lia. rewrite pick_out; [reflexivity|].
      intro K. apply in_map_iff in K as ([y m] & K1 & K2). cbn in K1. subst y.
      specialize (FA _ K2). cbn in FA. lia.
    + rewrite nth_error_app2 by (rewrite repeat_length; lia).
      rewrite repeat_length.
      replace (Z.to_nat (v - min - n) - Z.to_nat (x - min - n))%nat
        with (S (Z.to_nat (v - min - (x - min + 1)))) by lia.
      cbn [nth_error]. apply IH; [exact AR|exact LR|lia|].
      destruct C1 as [<-|C1]; [cbn in C2; lia|]. exists c. auto.
Qed.

(** The count of the line, by the number of gaps. *)
Lemma total_eq : forall is64 min cs n, asc cs -> (forall v l, In (v, l) cs -> n <= v - min) ->
  cs <> [] ->
  total is64 min cs n = cost is64 * (maxcase cs - min + 1 - n - zlen cs) + zlen cs.
Proof.
  intros is64 min cs. induction cs as [|[v l] r IH]; intros n AS LB NE; [congruence|].
  inversion AS as [|? ? FA AR]; subst. rewrite Forall_forall in FA. cbn in FA.
  cbn [total]. rewrite zlen_cons. destruct r as [|c r].
  - cbn. change (zlen (@nil (Z * Z))) with 0. unfold maxcase. cbn. destruct is64; cbn [cost]; lia.
  - rewrite IH; [|exact AR| |discriminate].
    + unfold maxcase. cbn [last]. set (M := fst _). destruct is64; cbn [cost]; lia.
    + intros v' l' I. specialize (FA _ I). cbn in FA. lia.
Qed.
