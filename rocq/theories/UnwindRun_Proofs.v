(** Unwinding undoes a prologue, wherever it is interrupted. *)
From Coq Require Import List ZArith Bool Lia.
From Verif Require Import Base Unwind_Model Unwind_Spec Unwind_Proofs.
Import ListNotations.
Open Scope Z_scope.

Local Arguments Z.modulo : simpl never.
Local Arguments Z.pow : simpl never.
Local Arguments Z.mul : simpl never.
Local Arguments Z.add : simpl never.
Local Arguments Z.sub : simpl never.

Definition uop_of (i : instr) : list uop :=
  match i with
  | IPush r => [UPush r] | ISub n => [UAlloc n] | ISave r o => [USave r o] | ISaveX r o => [USaveX r o] | ISetFp r o => [USetFp] | IOther _ => []
  end.
Definition U (p : prologue) : list uop := flat_map (fun '(_, i) => uop_of i) p.
Definition undos (inf : info) (base : Z) (m : machine) (l : list uop) : machine := fold_left (undo inf base) l m.
Definition setfp (p : prologue) := find (fun '(_, i) => match i with ISetFp _ _ => true | _ => false end) p.

Lemma upd_same {A} (f : Z -> A) k v : upd f k v k = v.
Proof. unfold upd. now rewrite Z.eqb_refl. Qed.
Lemma upd_other {A} (f : Z -> A) k v x : x <> k -> upd f k v x = f x.
Proof. intros H. unfold upd. destruct (Z.eqb_spec x k); congruence. Qed.
Lemma nonvol_4 r : nonvolatile r -> r <> 4.
Proof. unfold nonvolatile. cbn. intuition lia. Qed.
Lemma nonvol_reg r : nonvolatile r -> is_reg r /\ r <> 0.
Proof. unfold nonvolatile, is_reg. cbn. intuition lia. Qed.
Lemma execs_cons m i l : execs m (i :: l) = execs (exec m i) l.
Proof. reflexivity. Qed.

Fixpoint savesb (r : Z) (p : prologue) : bool :=
  match p with
  | [] => false
  | (_, i) :: q => match i with IPush x => r =? x | ISave x _ => r =? x | _ => false end || savesb r q
  end.
Fixpoint savesxb (r : Z) (p : prologue) : bool :=
  match p with
  | [] => false
  | (_, i) :: q => match i with ISaveX x _ => r =? x | _ => false end || savesxb r q
  end.
Lemma savesb_ok r p : savesb r p = true <-> saves r p.
Proof.
  unfold saves. induction p as [|[n i] q IH]; cbn [savesb].
  - split; [discriminate|]. intros (n & [[]|(o & [])]).
  - rewrite orb_true_iff, IH. split.
    + intros [H|(k & [H|(o & H)])].
      * exists n. destruct i; try discriminate; apply Z.eqb_eq in H; subst; [left; now left|right; eexists; now left].
      * exists k. left. now right.
      * exists k. right. exists o. now right.
    + intros (k & [[H|H]|(o & [H|H])]).
      * left. assert (i = IPush r) as -> by congruence. apply Z.eqb_refl.
      * right. eauto.
      * left. assert (i = ISave r o) as -> by congruence. apply Z.eqb_refl.
      * right. eauto.
Qed.
Lemma savesxb_ok r p : savesxb r p = true <-> saves_xmm r p.
Proof.
  unfold saves_xmm. induction p as [|[n i] q IH]; cbn [savesxb].
  - split; [discriminate|]. intros (n & o & []).
  - rewrite orb_true_iff, IH. split.
    + intros [H|(k & o & H)].
      * destruct i; try discriminate; apply Z.eqb_eq in H; subst. exists n, o. now left.
      * exists k, o. now right.
    + intros (k & o & [H|H]).
      * left. assert (i = ISaveX r o) as -> by congruence. apply Z.eqb_refl.
      * right. eauto.
Qed.

Ltac parts := repeat match goal with H : _ /\ _ |- _ => destruct H end.
(** * The second half *)
Lemma second_fp_unsaved top sp room r q : forall used, second top sp room used (Some r) q -> savesb r q = false.
Proof.
  induction q as [|[n i] q IH]; intros used H; [reflexivity|]. cbn [second] in H. destruct H as [_ H]. cbn [savesb].
  destruct i; cbn [orb]; try contradiction.
  - destruct H as (_ & H & _ & _ & _ & _ & Hq). rewrite (IH _ Hq). destruct (Z.eqb_spec r r0); [congruence|reflexivity].
  - destruct H as (_ & _ & _ & _ & _ & _ & Hq). exact (IH _ Hq).
  - destruct H as (_ & H & _). discriminate.
  - destruct H as (_ & Hq). exact (IH _ Hq).
Qed.
Lemma second_rsp top sp room q : forall used fp m, second top sp room used fp q -> rsp m = sp -> rsp (execs m (map snd q)) = rsp m.
Proof.
  induction q as [|[n i] q IH]; intros used fp m H Hsp; [reflexivity|]. cbn [second] in H. destruct H as [_ H]. cbn [map snd]. rewrite execs_cons.
  destruct i; try contradiction.
  - destruct H as (_ & _ & _ & _ & _ & _ & Hq). exact (IH _ _ (exec m (ISave r o)) Hq Hsp).
  - destruct H as (_ & _ & _ & _ & _ & _ & Hq). exact (IH _ _ (exec m (ISaveX r o)) Hq Hsp).
  - destruct H as (Hr & _ & _ & _ & Hq).
    assert (E : rsp (exec m (ISetFp r o)) = rsp m). { unfold rsp. cbn. apply upd_other. intros <-. now apply (nonvol_4 4). }
    rewrite (IH _ _ _ Hq); congruence.
  - destruct H as (Hf & Hq). destruct (Hf m Hsp) as (E & _). cbn [exec]. rewrite (IH _ _ _ Hq); congruence.
Qed.
Lemma second_keep top sp room q : forall used fp m, second top sp room used fp q -> rsp m = sp ->
  forall a, rsp m <= a <= top -> (In (a - rsp m) used \/ rsp m + room <= a) -> mem (execs m (map snd q)) a = mem m a.
Proof.
  induction q as [|[n i] q IH]; intros used fp m H Hsp a Ha Hu; [reflexivity|]. cbn [second] in H. destruct H as [_ H]. cbn [map snd]. rewrite execs_cons.
  destruct i; try contradiction.
  - destruct H as (_ & _ & H0 & H8 & Hr & Hn & Hq). rewrite (IH _ _ (exec m (ISave r o)) Hq Hsp a).
    + cbn. apply upd_other. intros ->. destruct Hu as [Hu|Hu]; [|lia]. apply Hn. replace (rsp m + o - rsp m) with o in Hu by lia. exact Hu.
    + exact Ha.
    + change (rsp (exec m (ISave r o))) with (rsp m). destruct Hu; [left; now right|now right].
  - destruct H as (_ & H0 & H8 & Hr & Hn & Hn2 & Hq). rewrite (IH _ _ (exec m (ISaveX r o)) Hq Hsp a).
    + cbn. rewrite !upd_other; [reflexivity| |].
      * intros ->. destruct Hu as [Hu|Hu]; [|lia]. apply Hn. replace (rsp m + o - rsp m) with o in Hu by lia. exact Hu.
      * intros ->. destruct Hu as [Hu|Hu]; [|lia]. apply Hn2. replace (rsp m + o + 8 - rsp m) with (o + 8) in Hu by lia. exact Hu.
    + exact Ha.
    + change (rsp (exec m (ISaveX r o))) with (rsp m). destruct Hu; [left; right; now right|now right].
  - destruct H as (Hr & _ & _ & _ & Hq).
    assert (E : rsp (exec m (ISetFp r o)) = rsp m). { unfold rsp. cbn. apply upd_other. intros <-. now apply (nonvol_4 4). }
    rewrite (IH _ _ _ Hq (eq_trans E Hsp) a); rewrite ?E; auto.
  - destruct H as (Hf & Hq). destruct (Hf m Hsp) as (E & _ & _ & Em). cbn [exec]. rewrite (IH _ _ _ Hq (eq_trans E Hsp) a); rewrite ?E; auto.
Qed.

Lemma U_cons n i q : U ((n, i) :: q) = uop_of i ++ U q.
Proof. reflexivity. Qed.
Lemma undos_cons inf base m n i q : undos inf base m (rev (U ((n, i) :: q))) = undos inf base (undos inf base m (rev (U q))) (uop_of i).
Proof.
  rewrite U_cons, rev_app_distr. unfold undos. rewrite fold_left_app. f_equal. destruct i; reflexivity.
Qed.

Record restored (m m' m2 : machine) (q : prologue) : Prop := {
  re_mem : mem m2 = mem m';
  re_saved : forall r, nonvolatile r -> savesb r q = true -> gpr m2 r = gpr m r;
  re_other : forall r, r <> 4 -> savesb r q = false -> gpr m2 r = gpr m' r;
  re_xsaved : forall r, nonvolatile_xmm r -> savesxb r q = true -> xmm m2 r = xmm m r;
  re_xother : forall r, savesxb r q = false -> xmm m2 r = xmm m' r }.

Lemma second_undo inf top sp room q : forall used fp m m',
  second top sp room used fp q -> rsp m = sp -> rsp m + room <= top ->
  (forall a, In a (slots m q) -> mem m' a = mem (execs m (map snd q)) a) ->
  match fp with
  | Some r => True
  | None => match setfp q with Some (_, ISetFp r o) => gpr m' r = rsp m + o /\ u_freg inf = r /\ u_fofs inf = o | _ => rsp m' = rsp m end
  end ->
  let m2 := undos inf (rsp m) m' (rev (U q)) in
  restored m m' m2 q /\ (fp = None -> rsp m2 = rsp m).
Proof.
  induction q as [|[n i] q IH]; intros used fp m m' Hw Hsp Htop Hs Hfp m2.
  { split; [constructor; auto; discriminate|]. intros ->. exact Hfp. }
  cbn [second] in Hw. destruct Hw as [_ Hw]. unfold m2. rewrite undos_cons.
  set (m1 := exec m i). assert (Hs1 : forall a, In a (slots m1 q) -> mem m' a = mem (execs m1 (map snd q)) a).
  { intros a Ha. rewrite (Hs a); [reflexivity|]. cbn [slots]. apply in_or_app. now right. }
  destruct i as [| |r o|r o|r o|f]; try contradiction; cbn [uop_of].
  - (* save *)
    destruct Hw as (Hr & Hnfp & H0 & H8 & Hroom & Hnin & Hq). pose proof (nonvol_4 r Hr) as Hr4.
    destruct (IH _ fp m1 m' Hq Hsp Htop Hs1 Hfp) as [R Hrsp]. change (rsp m1) with (rsp m) in *. set (mm := undos inf (rsp m) m' (rev (U q))) in *.
    destruct R as [E1 E2 E3 E4 E5].
    assert (Ev : mem mm (rsp m + o) = gpr m r).
    { rewrite E1, (Hs (rsp m + o)) by (cbn; auto). cbn [map snd]. rewrite execs_cons, (second_keep _ _ _ _ _ _ m1 Hq Hsp).
      - unfold m1. cbn. apply upd_same.
      - change (rsp m1) with (rsp m). lia.
      - left. change (rsp m1) with (rsp m). replace (rsp m + o - rsp m) with o by lia. now left. }
    change (undos inf (rsp m) mm [USave r o]) with (set_gpr mm r (mem mm (rsp m + o))). rewrite Ev.
    split; [constructor|].
    + exact E1.
    + intros x Hx. cbn [savesb]. unfold set_gpr. cbn [gpr]. destruct (Z.eqb_spec x r) as [->|Hne]; [rewrite upd_same; reflexivity|]. rewrite upd_other by auto. cbn [orb]. intros S. exact (E2 x Hx S).
    + intros x Hx. cbn [savesb]. destruct (Z.eqb_spec x r) as [->|Hne]; [discriminate|]. cbn [orb]. intros S. unfold set_gpr. cbn [gpr]. rewrite upd_other by auto. auto.
    + intros x Hx S. exact (E4 x Hx S).
    + intros x S. exact (E5 x S).
    + intros F. unfold rsp, set_gpr. cbn [gpr]. rewrite upd_other by auto. exact (Hrsp F).
  - (* save xmm *)
    destruct Hw as (Hr & H0 & H8 & Hroom & Hnin & Hnin2 & Hq).
    destruct (IH _ fp m1 m' Hq Hsp Htop Hs1 Hfp) as [R Hrsp]. change (rsp m1) with (rsp m) in *. set (mm := undos inf (rsp m) m' (rev (U q))) in *.
    destruct R as [E1 E2 E3 E4 E5].
    assert (Ev : (mem mm (rsp m + o), mem mm (rsp m + o + 8)) = xmm m r).
    { rewrite E1, (Hs (rsp m + o)), (Hs (rsp m + o + 8)) by (cbn; auto). cbn [map snd]. rewrite execs_cons. rewrite !(second_keep _ _ _ _ _ _ m1 Hq Hsp).
      - unfold m1. cbn. rewrite upd_same, upd_other, upd_same by lia. now destruct (xmm m r).
      - change (rsp m1) with (rsp m). lia.
      - left. change (rsp m1) with (rsp m). replace (rsp m + o + 8 - rsp m) with (o + 8) by lia. right. now left.
      - change (rsp m1) with (rsp m). lia.
      - left. change (rsp m1) with (rsp m). replace (rsp m + o - rsp m) with o by lia. now left. }
    change (undos inf (rsp m) mm [USaveX r o]) with (set_xmm mm r (mem mm (rsp m + o), mem mm (rsp m + o + 8))). rewrite Ev.
    split; [constructor|].
    + exact E1.
    + intros x Hx S. exact (E2 x Hx S).
    + intros x Hx S. exact (E3 x Hx S).
    + intros x Hx. cbn [savesxb]. unfold set_xmm. cbn [xmm]. destruct (Z.eqb_spec x r) as [->|Hne]; [rewrite upd_same; reflexivity|]. rewrite upd_other by auto. cbn [orb]. intros S. exact (E4 x Hx S).
    + intros x. cbn [savesxb]. destruct (Z.eqb_spec x r) as [->|Hne]; [discriminate|]. cbn [orb]. intros S. unfold set_xmm. cbn [xmm]. rewrite upd_other by auto. auto.
    + exact Hrsp.
  - (* set frame *)
    destruct Hw as (Hr & -> & Ho & Ho16 & Hq). pose proof (nonvol_4 r Hr) as Hr4. cbn [setfp find] in Hfp. destruct Hfp as (Hg & Hf1 & Hf2).
    assert (Er : rsp m1 = rsp m). { unfold m1, rsp. cbn. apply upd_other. congruence. }
    destruct (IH _ (Some r) m1 m' Hq) as [R _]; [lia|lia|exact Hs1|exact Logic.I|]. rewrite Er in R. set (mm := undos inf (rsp m) m' (rev (U q))) in *.
    destruct R as [E1 E2 E3 E4 E5]. pose proof (second_fp_unsaved _ _ _ _ _ _ Hq) as Hun.
    assert (Ev : gpr mm (u_freg inf) - u_fofs inf = rsp m).
    { rewrite Hf1, Hf2, (E3 r Hr4 Hun), Hg. lia. }
    change (undos inf (rsp m) mm [USetFp]) with (set_gpr mm 4 (gpr mm (u_freg inf) - u_fofs inf)). rewrite Ev.
    split; [constructor|].
    + exact E1.
    + intros x Hx. cbn [savesb orb]. intros S. unfold set_gpr. cbn [gpr]. rewrite upd_other by (now apply nonvol_4).
      rewrite (E2 x Hx S). unfold m1. cbn. apply upd_other. intros ->. congruence.
    + intros x Hx. cbn [savesb orb]. intros S. unfold set_gpr. cbn [gpr]. rewrite upd_other by auto. auto.
    + intros x Hx S. exact (E4 x Hx S).
    + intros x S. exact (E5 x S).
    + intros _. unfold rsp, set_gpr. cbn [gpr]. apply upd_same.
  - destruct Hw as (Hf & Hq). destruct (Hf m Hsp) as (Er & Eg & Ex & Em). change (rsp m1 = rsp m) in Er.
    assert (Hfp1 : match fp with
      | Some r => True
      | None => match setfp q with Some (_, ISetFp r o) => gpr m' r = rsp m1 + o /\ u_freg inf = r /\ u_fofs inf = o | _ => rsp m' = rsp m1 end end).
    { rewrite Er. exact Hfp. }
    destruct (IH _ fp m1 m' Hq ltac:(lia) ltac:(lia) Hs1 Hfp1) as [R Hrsp]. rewrite Er in R, Hrsp. destruct R as [E1 E2 E3 E4 E5].
    change (undos inf (rsp m) ?x []) with x. split; [constructor|exact Hrsp]; auto.
    + intros x Hx S. rewrite (E2 x Hx S). apply Eg. exact Hx.
    + intros x Hx S. rewrite (E4 x Hx S). apply Ex. exact Hx.
Qed.

(** * The first half *)
Lemma first_room top p : forall sp room m, first top sp room p -> rsp m = sp -> rsp m + room <= top -> 0 <= room ->
  forall a, rsp m + room <= a <= top -> mem (execs m (map snd p)) a = mem m a.
Proof.
  induction p as [|[n i] q IH]; intros sp room m Hw Hsp Ht H0 a Ha; [reflexivity|].
  assert (H2 : second top sp room [] None ((n, i) :: q) -> mem (execs m (map snd ((n, i) :: q))) a = mem m a).
  { intros H. apply (second_keep _ _ _ _ _ _ _ H Hsp); [lia|]. right. lia. }
  destruct i; try exact (H2 Hw); cbn [first] in Hw; cbn [map snd]; rewrite execs_cons; clear H2.
  - destruct Hw as (_ & Hr & Hq).
    assert (E : rsp (exec m (IPush r)) = rsp m - 8) by reflexivity.
    rewrite (IH _ 0 _ Hq) by (rewrite ?E; lia). cbn. apply upd_other. lia.
  - destruct Hw as (_ & Hk & _ & Hq).
    assert (E : rsp (exec m (ISub n0)) = rsp m - n0) by reflexivity.
    rewrite (IH _ _ _ Hq) by (rewrite ?E; lia). reflexivity.
  - destruct Hw as (_ & Hf & Hq). destruct (Hf m Hsp) as (E & _ & _ & Em). cbn [exec]. rewrite (IH _ _ _ Hq) by (rewrite ?E; lia). apply Em. lia.
Qed.

Lemma first_undo inf top p : forall sp room m m',
  first top sp room p -> rsp m = sp -> rsp m + room <= top -> 0 <= room ->
  (forall a, In a (slots m p) -> mem m' a = mem (execs m (map snd p)) a) ->
  let B := rsp (execs m (map snd p)) in
  match setfp p with Some (_, ISetFp r o) => gpr m' r = B + o /\ u_freg inf = r /\ u_fofs inf = o | _ => rsp m' = B end ->
  let m2 := undos inf B m' (rev (U p)) in
  restored m m' m2 p /\ rsp m2 = rsp m.
Proof.
  induction p as [|[n i] q IH]; intros sp room m m' Hw Hsp Ht H0 Hs B Hfp m2.
  { split; [constructor; auto; discriminate|]. exact Hfp. }
  assert (H2 : second top sp room [] None ((n, i) :: q) -> restored m m' m2 ((n, i) :: q) /\ rsp m2 = rsp m).
  { intros H. assert (EB : B = rsp m) by (unfold B; exact (second_rsp _ _ _ _ _ _ _ H Hsp)).
    unfold m2. rewrite EB in *. destruct (second_undo inf top sp room _ [] None m m' H Hsp Ht Hs Hfp) as [R Hr]. auto. }
  destruct i as [r|k| | | |f]; try exact (H2 Hw); clear H2; unfold m2; rewrite undos_cons; cbn [uop_of]; cbn [first] in Hw.
  - destruct Hw as (_ & Hr & Hq). pose proof (nonvol_4 r Hr) as Hr4. set (m1 := exec m (IPush r)).
    assert (E : rsp m1 = rsp m - 8) by reflexivity.
    destruct (IH (sp - 8) 0 m1 m' Hq) as [R Er]; [lia|lia|lia| |exact Hfp|].
    { intros a Ha. rewrite (Hs a); [reflexivity|]. cbn [slots]. apply in_or_app. now right. }
    change (rsp (execs m1 (map snd q))) with B in R, Er. set (mm := undos inf B m' (rev (U q))) in *. destruct R as [E1 E2 E3 E4 E5].
    assert (Ev : mem mm (rsp mm) = gpr m r).
    { rewrite Er, E, E1, (Hs (rsp m - 8)) by (cbn; auto). cbn [map snd]. rewrite execs_cons. fold m1.
      rewrite (first_room top q _ 0 m1 Hq) by lia. unfold m1. cbn. apply upd_same. }
    change (undos inf B mm [UPush r]) with (set_gpr (set_gpr mm r (mem mm (rsp mm))) 4 (rsp mm + 8)). rewrite Ev, Er, E.
    assert (Em1 : forall x, x <> 4 -> gpr m1 x = gpr m x) by (intros x Hx; unfold m1; cbn; now apply upd_other).
    split; [constructor|].
    + exact E1.
    + intros x Hx. pose proof (nonvol_4 x Hx). cbn [savesb]. unfold set_gpr. cbn [gpr]. rewrite upd_other by auto.
      destruct (Z.eqb_spec x r) as [->|Hne]; [rewrite upd_same; reflexivity|]. rewrite upd_other by auto. cbn [orb]. intros S. rewrite (E2 x Hx S). auto.
    + intros x Hx. cbn [savesb]. destruct (Z.eqb_spec x r) as [->|Hne]; [discriminate|]. cbn [orb]. intros S. unfold set_gpr. cbn [gpr]. rewrite !upd_other by auto. auto.
    + intros x Hx S. exact (E4 x Hx S).
    + intros x S. exact (E5 x S).
    + unfold rsp, set_gpr. cbn [gpr]. rewrite upd_same. fold (rsp m). lia.
  - destruct Hw as (_ & Hk & _ & Hq). set (m1 := exec m (ISub k)).
    assert (E : rsp m1 = rsp m - k) by reflexivity.
    destruct (IH (sp - k) (room + k) m1 m' Hq) as [R Er]; [lia|lia|lia| |exact Hfp|].
    { intros a Ha. rewrite (Hs a); [reflexivity|]. cbn [slots]. apply in_or_app. now right. }
    change (rsp (execs m1 (map snd q))) with B in R, Er. set (mm := undos inf B m' (rev (U q))) in *. destruct R as [E1 E2 E3 E4 E5].
    change (undos inf B mm [UAlloc k]) with (set_gpr mm 4 (rsp mm + k)). rewrite Er, E.
    assert (Em1 : forall x, x <> 4 -> gpr m1 x = gpr m x) by (intros x Hx; unfold m1; cbn; now apply upd_other).
    split; [constructor|].
    + exact E1.
    + intros x Hx S. pose proof (nonvol_4 x Hx). unfold set_gpr. cbn [gpr]. rewrite upd_other by auto. rewrite (E2 x Hx S). auto.
    + intros x Hx S. unfold set_gpr. cbn [gpr]. rewrite upd_other by auto. exact (E3 x Hx S).
    + intros x Hx S. exact (E4 x Hx S).
    + intros x S. exact (E5 x S).
    + unfold rsp at 1, set_gpr. cbn [gpr]. rewrite upd_same. lia.
  - destruct Hw as (_ & Hf & Hq). destruct (Hf m Hsp) as (E & Eg & Ex & Em). set (m1 := exec m (IOther f)). change (rsp m1 = rsp m) in E.
    destruct (IH sp room m1 m' Hq) as [R Er]; [lia|lia|lia| |exact Hfp|].
    { intros a Ha. rewrite (Hs a); [reflexivity|]. cbn [slots]. apply in_or_app. now right. }
    change (rsp (execs m1 (map snd q))) with B in R, Er. set (mm := undos inf B m' (rev (U q))) in *. destruct R as [E1 E2 E3 E4 E5].
    change (undos inf B mm []) with mm. split; [constructor|lia]; auto.
    + intros x Hx S. rewrite (E2 x Hx S). apply Eg. exact Hx.
    + intros x Hx S. rewrite (E4 x Hx S). apply Ex. exact Hx.
Qed.

(** * Positions *)
Fixpoint placed (pos : Z) (p : prologue) : list (Z * uop) :=
  match p with [] => [] | (n, i) :: q => map (pair (pos + n)) (uop_of i) ++ placed (pos + n) q end.
Lemma announced_source p : forall pos, announced (source pos p) = placed pos p.
Proof.
  induction p as [|[n i] q IH]; intros pos; [reflexivity|]. cbn [source placed]. unfold announced. rewrite flat_map_app. fold (announced (source (pos + n) q)).
  rewrite IH. f_equal. destruct i; reflexivity.
Qed.
Definition lengths_ok (p : prologue) : Prop := Forall (fun '(n, _) => 0 < n) p.
Lemma second_lengths top sp room q : forall used fp, second top sp room used fp q -> lengths_ok q.
Proof.
  induction q as [|[n i] q IH]; intros used fp H; [constructor|]. cbn [second] in H. destruct H as [Hn H]. constructor; [exact Hn|]. change (lengths_ok q).
  destruct i; try contradiction; parts; eauto.
Qed.
Lemma first_lengths top p : forall sp room, first top sp room p -> lengths_ok p.
Proof.
  induction p as [|[n i] q IH]; intros sp room H; [constructor|].
  destruct i; cbn [first] in H; try (exact (second_lengths _ _ _ _ _ _ H)); parts; (constructor; [assumption|change (lengths_ok q)]); eauto.
Qed.
Lemma length_of_cons n i q : length_of ((n, i) :: q) = n + length_of q.
Proof. reflexivity. Qed.
Lemma length_of_nonneg p : lengths_ok p -> 0 <= length_of p.
Proof. induction p as [|[n i] q IH]; intros H; [cbn; lia|]. apply Forall_cons_iff in H as [Hn Hq]. rewrite length_of_cons. specialize (IH Hq). lia. Qed.
Lemma placed_above p : forall pos, lengths_ok p -> Forall (fun '(o, _) => pos < o <= pos + length_of p) (placed pos p).
Proof.
  induction p as [|[n i] q IH]; intros pos H; [constructor|]. apply Forall_cons_iff in H as [Hn Hq]. cbn [placed].
  pose proof (length_of_nonneg q Hq) as Hl. rewrite length_of_cons.
  apply Forall_app. split.
  - destruct i; cbn [uop_of map]; repeat constructor; lia.
  - eapply Forall_impl; [|exact (IH (pos + n) Hq)]. intros [o u]. lia.
Qed.
Lemma placed_app p q pos : placed pos (p ++ q) = placed pos p ++ placed (pos + length_of p) q.
Proof.
  revert pos. induction p as [|[n i] p IH]; intros pos; cbn [app placed].
  - cbn. now rewrite Z.add_0_r.
  - rewrite IH, length_of_cons, Z.add_assoc, app_assoc. reflexivity.
Qed.
Lemma placed_U p : forall pos, map snd (placed pos p) = U p.
Proof.
  induction p as [|[n i] q IH]; intros pos; [reflexivity|]. cbn [placed]. rewrite map_app, IH, U_cons. f_equal. destruct i; reflexivity.
Qed.

(** prefixes *)
Lemma second_app top sp room p q : forall used fp, second top sp room used fp (p ++ q) -> second top sp room used fp p.
Proof.
  induction p as [|[n i] p IH]; intros used fp H; [exact Logic.I|]. cbn [app second] in *. destruct H as [Hn H]. split; [exact Hn|].
  destruct i; try contradiction; parts; repeat (split; [assumption|]); eauto.
Qed.
Lemma first_second top sp room p : second top sp room [] None p -> first top sp room p.
Proof.
  destruct p as [|[n i] p]; [auto|]. intros H. destruct i; try exact H; cbn [second] in H; try tauto.
  cbn [first]. destruct H as (Hn & Hf & Hq). split; [exact Hn|]. split; [exact Hf|].
  revert Hq. clear. induction p as [|[n i] p IH]; [auto|]. intros H. destruct i; try exact H; cbn [second] in H; try tauto.
  cbn [first]. intuition.
Qed.
Lemma first_app top p q : forall sp room, first top sp room (p ++ q) -> first top sp room p.
Proof.
  induction p as [|[n i] p IH]; intros sp room H; [exact Logic.I|].
  destruct i; cbn [app first] in *; try (exact (second_app top sp room ((n, _) :: p) q [] None H)); parts; repeat (split; [assumption|]); eauto.
Qed.

Lemma second_setfp_r top sp room q : forall used r, second top sp room used (Some r) q -> setfp q = None.
Proof.
  induction q as [|[n i] q IH]; intros used r H; [reflexivity|]. cbn [second] in H. destruct H as [_ H]. unfold setfp. cbn [find].
  destruct i; try contradiction; fold (setfp q); parts; try discriminate; eauto.
Qed.
Lemma setfp_app p q : setfp (p ++ q) = match setfp p with Some x => Some x | None => setfp q end.
Proof. unfold setfp. induction p as [|[n i] p IH]; [reflexivity|]. cbn [app find]. destruct i; auto. Qed.
Lemma setfp_shape p x : setfp p = Some x -> exists n r o, x = (n, ISetFp r o).
Proof. intros H. apply find_some in H as [_ H]. destruct x as [n i]. destruct i; try discriminate. eauto. Qed.

(** the value of the frame register *)
Lemma second_fpval top sp room q : forall used m fp, second top sp room used fp q -> rsp m = sp ->
  match fp with
  | Some r => gpr (execs m (map snd q)) r = gpr m r \/ ~ nonvolatile r
  | None => match setfp q with Some (_, ISetFp r o) => nonvolatile r /\ 0 <= o <= 240 /\ o mod 16 = 0 /\ gpr (execs m (map snd q)) r = rsp m + o | _ => True end end.
Proof.
  induction q as [|[n i] q IH]; intros used m fp H Hsp; [destruct fp; cbn; auto|]. cbn [second] in H. destruct H as [_ H]. cbn [map snd]. rewrite execs_cons.
  destruct i; try contradiction.
  - destruct H as (_ & _ & _ & _ & _ & _ & Hq). specialize (IH _ (exec m (ISave r o)) _ Hq Hsp). exact IH.
  - destruct H as (_ & _ & _ & _ & _ & _ & Hq). specialize (IH _ (exec m (ISaveX r o)) _ Hq Hsp). exact IH.
  - destruct H as (Hr & -> & Ho & Ho16 & Hq). assert (E0 : rsp (exec m (ISetFp r o)) = rsp m) by (unfold rsp; cbn; apply upd_other; intros <-; now apply (nonvol_4 4)). specialize (IH _ (exec m (ISetFp r o)) _ Hq (eq_trans E0 Hsp)). cbn [setfp find]. repeat split; auto; try lia.
    destruct IH as [E|E]; [|contradiction]. rewrite E. cbn. apply upd_same.
  - destruct H as (Hf & Hq). destruct (Hf m Hsp) as (E & Eg & _). specialize (IH _ (exec m (IOther f)) _ Hq (eq_trans E Hsp)). cbn [exec] in *. destruct fp as [r|].
    + destruct IH as [IH|IH]; [|auto]. assert (D : nonvolatile r \/ ~ nonvolatile r) by (unfold nonvolatile; destruct (in_dec Z.eq_dec r [3; 5; 6; 7; 12; 13; 14; 15]); auto).
      destruct D as [D|D]; [|auto]. left. rewrite IH. auto.
    + cbn [setfp find]. fold (setfp q). rewrite E in IH. exact IH.
Qed.
Lemma first_fpval top p : forall sp room m, first top sp room p -> rsp m = sp ->
  match setfp p with Some (_, ISetFp r o) => nonvolatile r /\ 0 <= o <= 240 /\ o mod 16 = 0 /\ gpr (execs m (map snd p)) r = rsp (execs m (map snd p)) + o | _ => True end.
Proof.
  induction p as [|[n i] q IH]; intros sp room m H Hsp; [exact Logic.I|].
  assert (H2 : second top sp room [] None ((n, i) :: q) ->
    match setfp ((n, i) :: q) with Some (_, ISetFp r o) => nonvolatile r /\ 0 <= o <= 240 /\ o mod 16 = 0 /\ gpr (execs m (map snd ((n, i) :: q))) r = rsp (execs m (map snd ((n, i) :: q))) + o | _ => True end).
  { intros X. rewrite (second_rsp _ _ _ _ _ _ m X Hsp). exact (second_fpval _ _ _ _ _ m _ X Hsp). }
  destruct i; try exact (H2 H); cbn [first] in H; cbn [map snd setfp find]; rewrite execs_cons; fold (setfp q); parts; (eapply IH; [eassumption|]); cbn [exec]; try match goal with Hf : harmless _ _ _ |- _ => destruct (Hf m Hsp) as (E & _); congruence end; unfold rsp, store, set_gpr; cbn [gpr]; rewrite upd_same; fold (rsp m); congruence.
Qed.

(** frame register and offset in the unwind data *)
Lemma frame_fold_none q : forall pos f, setfp q = None -> fold_left (fun f '(_, d) => match d with DSetFrame r v => (r, v) | _ => f end) (source pos q) f = f.
Proof.
  induction q as [|[n i] q IH]; intros pos f H; [reflexivity|]. cbn [source]. rewrite fold_left_app.
  unfold setfp in H. cbn [find] in H. destruct i; try discriminate; apply IH; exact H.
Qed.
Lemma second_frame top sp room q : forall used pos, second top sp room used None q ->
  frame_of (source pos q) = match setfp q with Some (_, ISetFp r o) => (r, o) | _ => (0, 0) end.
Proof.
  unfold frame_of. induction q as [|[n i] q IH]; intros used pos H; [reflexivity|]. cbn [second] in H. destruct H as [_ H]. cbn [source]. rewrite fold_left_app.
  destruct i; try contradiction; cbn [fold_left setfp find]; fold (setfp q).
  - destruct H as (_ & _ & _ & _ & _ & _ & Hq). exact (IH _ _ Hq).
  - destruct H as (_ & _ & _ & _ & _ & _ & Hq). exact (IH _ _ Hq).
  - destruct H as (_ & _ & _ & _ & Hq). apply frame_fold_none. exact (second_setfp_r _ _ _ _ _ _ Hq).
  - destruct H as (_ & Hq). exact (IH _ _ Hq).
Qed.
Lemma first_frame top p : forall sp room pos, first top sp room p ->
  frame_of (source pos p) = match setfp p with Some (_, ISetFp r o) => (r, o) | _ => (0, 0) end.
Proof.
  induction p as [|[n i] q IH]; intros sp room pos H; [reflexivity|].
  destruct i; try exact (second_frame _ _ _ _ _ pos H); cbn [first] in H; cbn [source]; unfold frame_of; rewrite fold_left_app; cbn [fold_left setfp find]; fold (setfp q);
    parts; eapply IH; eassumption.
Qed.

(** operands of the directives *)
Lemma second_plain top sp room q : forall used fp pos, second top sp room used fp q -> near q -> Forall (fun '(_, d) => plain_operands d) (source pos q).
Proof.
  induction q as [|[n i] q IH]; intros used fp pos H Hn; [repeat constructor|]. cbn [second] in H. destruct H as [_ H]. apply Forall_cons_iff in Hn as [Hn Hnq].
  cbn [source]. destruct i; try contradiction; cbn [app].
  - destruct H as (Hr & _ & H0 & H8 & _ & _ & Hq). constructor; [|eauto]. cbn. split; [now apply nonvol_reg|]. auto.
  - destruct H as (Hr & H0 & H8 & _ & _ & _ & Hq). constructor; [|eauto]. cbn. unfold nonvolatile_xmm, is_reg in *. split; [lia|]. auto.
  - destruct H as (Hr & _ & H0 & H8 & Hq). constructor; [|eauto]. cbn. split; [now apply nonvol_reg|]. auto.
  - destruct H as (_ & Hq). eauto.
Qed.
Lemma first_plain top p : forall sp room pos, first top sp room p -> near p -> Forall (fun '(_, d) => plain_operands d) (source pos p).
Proof.
  induction p as [|[n i] q IH]; intros sp room pos H Hn; [repeat constructor|].
  destruct i; try exact (second_plain _ _ _ _ _ _ pos H Hn); cbn [first] in H; apply Forall_cons_iff in Hn as [_ Hn]; cbn [source app].
  - constructor; [|eapply IH; [apply H|auto]]. cbn. apply nonvol_reg. tauto.
  - constructor; [|eapply IH; [apply H|auto]]. cbn. tauto.
  - eapply IH; [apply H|auto].
Qed.
Lemma source_ordered p : forall pos, lengths_ok p -> ordered pos (source pos p).
Proof.
  assert (W : forall l a b, a <= b -> ordered b l -> ordered a l) by (intros [|[c d] l] a b; cbn; [auto|intuition lia]).
  induction p as [|[n i] q IH]; intros pos H; [cbn; lia|]. apply Forall_cons_iff in H as [Hn Hq]. cbn [source].
  specialize (IH (pos + n) Hq). destruct i; cbn [app ordered]; (split; [lia|exact IH]) || apply (W _ _ (pos + n)); auto; lia.
Qed.
Lemma source_last p : forall pos, exists k, source pos p = k ++ [(pos + length_of p, DEndProlog)].
Proof.
  induction p as [|[n i] q IH]; intros pos.
  - exists []. cbn. rewrite Z.add_0_r. reflexivity.
  - destruct (IH (pos + n)) as [k E]. cbn [source]. rewrite E, length_of_cons, Z.add_assoc. eexists. rewrite app_assoc. reflexivity.
Qed.

Lemma fold_skip inf base ip l m : Forall (fun '(o, _) => ip < o) l -> fold_left (fun m '(o, u) => if o <=? ip then undo inf base m u else m) l m = m.
Proof.
  revert m. induction l as [|[o u] l IH]; intros m H; [reflexivity|]. apply Forall_cons_iff in H as [H Hl]. cbn [fold_left].
  destruct (Z.leb_spec o ip); [lia|]. auto.
Qed.
Lemma fold_do inf base ip l m : Forall (fun '(o, _) => o <= ip) l -> fold_left (fun m '(o, u) => if o <=? ip then undo inf base m u else m) l m = undos inf base m (map snd l).
Proof.
  revert m. induction l as [|[o u] l IH]; intros m H; [reflexivity|]. apply Forall_cons_iff in H as [H Hl]. cbn [fold_left map snd].
  destruct (Z.leb_spec o ip); [|lia]. unfold undos. cbn [fold_left]. apply IH. exact Hl.
Qed.

(** does a list of codes contain an executed .SETFRAME *)
Lemma exists_setfp ip p pos : existsb (fun '(o, u) => match u with USetFp => o <=? ip | _ => false end) (placed pos p) = true -> exists x, setfp p = Some x.
Proof.
  revert pos. induction p as [|[n i] q IH]; intros pos; cbn [placed]; [discriminate|]. unfold setfp. cbn [find].
  destruct i; cbn [uop_of map app existsb orb]; fold (setfp q); eauto.
Qed.
Lemma setfp_exists ip p pos : Forall (fun '(o, _) => o <= ip) (placed pos p) -> (exists x, setfp p = Some x) ->
  existsb (fun '(o, u) => match u with USetFp => o <=? ip | _ => false end) (placed pos p) = true.
Proof.
  revert pos. induction p as [|[n i] q IH]; intros pos H [x Hx]; [discriminate|]. cbn [placed] in *. apply Forall_app in H as [H1 H2].
  unfold setfp in Hx. cbn [find] in Hx. destruct i; cbn [uop_of map app existsb orb]; try (eapply IH; [exact H2|eauto]).
  apply Forall_cons_iff in H1 as [H1 _]. destruct (Z.leb_spec (pos + n) ip); [reflexivity|lia].
Qed.
Lemma existsb_rev {A} (f : A -> bool) l : existsb f (rev l) = existsb f l.
Proof.
  induction l as [|a l IH]; [reflexivity|]. cbn [rev existsb]. rewrite existsb_app, IH. cbn [existsb]. rewrite orb_false_r. apply orb_comm.
Qed.

(** * All together *)
Theorem unwinds p s h pos m0 q rest m' ip :
  wf_prologue (rsp m0) (q ++ rest) -> p = q ++ rest -> near p -> length_of p < 2 ^ 32 ->
  directives unw0 (source 0 p) = Ok s -> pos mod 4 = 0 -> match h with Some a => 0 <= a < 2 ^ 32 | None => True end ->
  length_of q <= ip -> match rest with (n, _) :: _ => ip < length_of q + n | [] => True end ->
  intact m0 q m' ->
  exists inf, (forall bytes, read_info (xdata_item s h pos ++ bytes) = Some (inf, h)) /\
  let '(ret, m2) := unwind inf ip m' in
  ret = mem m0 (rsp m0) /\ rsp m2 = rsp m0 + 8 /\ mem m2 = mem m' /\
  (forall r, saves r q -> gpr m2 r = gpr m0 r) /\ (forall r, r <> 4 -> ~ saves r q -> gpr m2 r = gpr m' r) /\
  (forall r, saves_xmm r q -> xmm m2 r = xmm m0 r) /\ (forall r, ~ saves_xmm r q -> xmm m2 r = xmm m' r).
Proof.
  intros Hw Ep Hnear Hlong Hd Hpos Hh Hip1 Hip2 [Hmem Hreg]. unfold wf_prologue in Hw. rewrite <- Ep in Hw.
  pose proof (first_lengths _ _ _ _ Hw) as Hlen. pose proof (first_plain _ _ _ _ 0 Hw Hnear) as Hplain.
  destruct (source_last p 0) as [ks Es]. rewrite Z.add_0_l in Es.
  assert (Hq : first (rsp m0) (rsp m0) 0 q) by (rewrite Ep in Hw; exact (first_app _ _ _ _ _ Hw)).
  assert (Hlq : lengths_ok q) by exact (first_lengths _ _ _ _ Hq).
  pose proof (source_ordered p 0 Hlen) as Hord. pose proof (length_of_nonneg p Hlen) as Hlp.
  (* the end of the prologue has been seen *)
  assert (He : endprolog s = true).
  { assert (G : forall k c s0 s1, directives s0 (k ++ [(c, DEndProlog)]) = Ok s1 -> endprolog s1 = true).
    { assert (Einj : forall a b : unw, Ok a = Ok b -> a = b) by congruence.
      induction k as [|[c0 d0] k IH]; intros c s0 s1 X; cbn [app directives] in X.
      - unfold ExcFrameDirective in X. destruct (endprolog s0); [discriminate|]. rewrite Z.gtb_ltb in X. destruct (Z.ltb_spec 255 (wrap 32 c)); [discriminate|].
        cbn [bindr] in X. apply Einj in X. subst s1. reflexivity.
      - destruct (ExcFrameDirective s0 c0 d0); cbn [bindr] in X; try discriminate. eauto. }
    rewrite Es in Hd. exact (G _ _ _ _ Hd). }
  assert (H32 : Forall (fun '(c, _) => c < 2 ^ 32) (source 0 p)).
  { eapply Forall_impl; [|exact (ordered_bounds _ 0 _ _ _ Es Hord)]. intros [c d]. lia. }
  destruct (xdata_decodes (source 0 p) s h pos Hd He Hplain Hord H32 Hpos Hh) as (k & c & Ek & Hc & Hread).
  assert (c = length_of p) as ->. { rewrite Es in Ek. apply app_inj_tail in Ek as [_ Ek]. congruence. }
  rewrite (first_frame _ _ _ _ 0 Hw), announced_source in Hread.
  set (inf := {| u_flags := _; u_prolog := _; u_freg := _; u_fofs := _; u_ops := _ |}) in Hread. exists inf. split; [exact Hread|].
  set (B := rsp (execs m0 (map snd q))).
  pose proof (first_fpval _ _ _ _ m0 Hq eq_refl) as Hfv. fold B in Hfv.
  assert (Hops : u_ops inf = rev (placed (length_of q) rest) ++ rev (placed 0 q)).
  { unfold inf. cbn [u_ops]. rewrite Ep, placed_app, Z.add_0_l, rev_app_distr. reflexivity. }
  assert (Hlr : lengths_ok rest). { rewrite Ep in Hlen. apply Forall_app in Hlen as [_ Hlen]. exact Hlen. }
  assert (Hrest : Forall (fun '(o, _) => ip < o) (placed (length_of q) rest)).
  { destruct rest as [|[n i] rest]; [constructor|]. apply Forall_cons_iff in Hlr as [Hn Hlr]. cbn [placed]. apply Forall_app. split.
    - destruct i; cbn [uop_of map]; repeat constructor; lia.
    - eapply Forall_impl; [|exact (placed_above rest (length_of q + n) Hlr)]. intros [o u]. lia. }
  assert (Hdone : Forall (fun '(o, _) => o <= ip) (placed 0 q)).
  { eapply Forall_impl; [|exact (placed_above q 0 Hlq)]. intros [o u]. lia. }
  (* the frame register *)
  assert (Hfs : frame_set inf ip = match setfp q with Some _ => true | None => false end).
  { unfold frame_set. rewrite Hops, existsb_app, !existsb_rev.
    assert (X1 : existsb (fun '(o, u) => match u with USetFp => o <=? ip | _ => false end) (placed (length_of q) rest) = false).
    { clear - Hrest. induction (placed (length_of q) rest) as [|[o u] l IH]; [reflexivity|]. apply Forall_cons_iff in Hrest as [Ho Hl]. cbn [existsb].
      destruct u; cbn [orb]; auto. destruct (Z.leb_spec o ip); [lia|]. auto. }
    rewrite X1. cbn [orb].
    destruct (setfp q) as [x|] eqn:Eq.
    - rewrite (setfp_exists ip q 0 Hdone) by eauto. rewrite orb_true_r, andb_true_r.
      destruct (setfp_shape _ _ Eq) as (n & r & o & ->). unfold inf. cbn [u_freg]. rewrite Ep, setfp_app, Eq. cbn [fst].
      destruct Hfv as (Hr & _). apply nonvol_reg in Hr as [_ Hr]. destruct (Z.eqb_spec r 0); [contradiction|reflexivity].
    - assert (X2 : existsb (fun '(o, u) => match u with USetFp => o <=? ip | _ => false end) (placed 0 q) = false).
      { destruct (existsb _ (placed 0 q)) eqn:X; [|reflexivity]. destruct (exists_setfp _ _ _ X). congruence. }
      rewrite X2, orb_false_r. unfold inf. cbn [u_freg u_prolog]. rewrite Ep, setfp_app, Eq. destruct rest as [|[n i] rest]; [reflexivity|].
      rewrite andb_false_iff. right.
      assert (Hl2 : length_of (q ++ (n, i) :: rest) = length_of q + (n + length_of rest)).
      { clear. induction q as [|[k j] q IH]; [reflexivity|]. cbn [app]. rewrite !length_of_cons, IH. lia. }
      rewrite Hl2. apply Forall_cons_iff in Hlr as [Hn Hlr]. pose proof (length_of_nonneg rest Hlr). apply Z.leb_gt. lia. }
  assert (HB : match setfp q with Some (_, ISetFp r o) => gpr m' r = B + o /\ u_freg inf = r /\ u_fofs inf = o | _ => rsp m' = B end).
  { change (match setfp q with Some (_, ISetFp r _) => gpr m' r = gpr (execs m0 (map snd q)) r | _ => rsp m' = rsp (execs m0 (map snd q)) end) in Hreg.
    destruct (setfp q) as [x|] eqn:Eq; [|exact Hreg]. destruct (setfp_shape _ _ Eq) as (n & r & o & ->).
    unfold inf. cbn [u_freg u_fofs]. rewrite Ep, setfp_app, Eq. cbn [fst snd]. rewrite Hreg. tauto. }
  assert (Hbase : (if frame_set inf ip then gpr m' (u_freg inf) - u_fofs inf else rsp m') = B).
  { rewrite Hfs. destruct (setfp q) as [x|] eqn:Eq; [|exact HB]. destruct (setfp_shape _ _ Eq) as (n & r & o & ->). destruct HB as (-> & <- & <-) || destruct HB as (G & -> & ->). all: lia. }
  assert (Hslots : forall a, In a (slots m0 q) -> mem m' a = mem (execs m0 (map snd q)) a) by (intros a Ha; apply Hmem; now right).
  destruct (first_undo inf (rsp m0) q _ 0 m0 m' Hq eq_refl ltac:(lia) ltac:(lia) Hslots HB) as [R Hr]. fold B in R, Hr.
  unfold unwind. rewrite Hbase, Hops, fold_left_app, (fold_skip inf B ip (rev (placed (length_of q) rest))) by (now apply Forall_rev). rewrite fold_do by (now apply Forall_rev).
  rewrite map_rev, placed_U. set (m2 := undos inf B m' (rev (U q))) in *. destruct R as [E1 E2 E3 E4 E5].
  assert (Hnv : forall r, saves r q -> nonvolatile r).
  { clear - Hq. intros r (n & H). revert Hq. generalize 0 as room. generalize (rsp m0) at 2 as sp. revert H. induction q as [|[k i] q IH]; intros H sp room Hw; [destruct H as [[]|(o & [])]|].
    assert (S2 : forall used fp q, second (rsp m0) sp room used fp q -> (exists o, In (n, ISave r o) q) \/ In (n, IPush r) q -> nonvolatile r).
    { clear. intros used fp q. revert used fp. induction q as [|[k i] q IH]; intros used fp Hw H; [destruct H as [(o & [])|[]]|].
      cbn [second] in Hw. destruct Hw as [_ Hw]. destruct H as [(o & [H|H])|[H|H]].
      - assert (i = ISave r o) as -> by congruence. tauto.
      - destruct i; try contradiction; parts; eauto.
      - assert (i = IPush r) as -> by congruence. contradiction.
      - destruct i; try contradiction; parts; eauto. }
    assert (Hor : (exists o, In (n, ISave r o) ((k, i) :: q)) \/ In (n, IPush r) ((k, i) :: q)) by tauto.
    destruct i; try exact (S2 _ _ _ Hw Hor); cbn [first] in Hw.
    - destruct H as [[H|H]|(o & [H|H])]; try congruence; parts; [|eapply IH; eauto|eapply IH; eauto]. assert (r0 = r) as -> by congruence. assumption.
    - destruct H as [[H|H]|(o & [H|H])]; try congruence; parts; eapply IH; eauto.
    - destruct H as [[H|H]|(o & [H|H])]; try congruence; parts; eapply IH; eauto. }
  assert (Hnx : forall r, saves_xmm r q -> nonvolatile_xmm r).
  { clear - Hq. intros r (n & o & H). revert Hq. generalize 0 as room. generalize (rsp m0) at 2 as sp. revert H. induction q as [|[k i] q IH]; intros H sp room Hw; [destruct H|].
    assert (S2 : forall used fp q, second (rsp m0) sp room used fp q -> In (n, ISaveX r o) q -> nonvolatile_xmm r).
    { clear. intros used fp q. revert used fp. induction q as [|[k i] q IH]; intros used fp Hw H; [destruct H|].
      cbn [second] in Hw. destruct Hw as [_ Hw]. destruct H as [H|H].
      - assert (i = ISaveX r o) as -> by congruence. tauto.
      - destruct i; try contradiction; parts; eauto. }
    destruct i; try exact (S2 _ _ _ Hw H); cbn [first] in Hw; (destruct H as [H|H]; [congruence|]); parts; eapply IH; eauto. }
  split; [|split; [|split; [|split; [|split; [|split]]]]].
  - rewrite Hr, E1, (Hmem (rsp m0)) by (now left). apply (first_room _ _ _ 0 m0 Hq eq_refl); lia.
  - unfold rsp at 1, set_gpr. cbn [gpr]. rewrite upd_same. now rewrite Hr.
  - exact E1.
  - intros r Hs. pose proof (Hnv r Hs). unfold set_gpr. cbn [gpr]. rewrite upd_other by (now apply nonvol_4). apply E2; [assumption|now apply savesb_ok].
  - intros r Hr4 Hs. unfold set_gpr. cbn [gpr]. rewrite upd_other by auto. apply E3; auto. destruct (savesb r q) eqn:X; [|reflexivity]. apply savesb_ok in X. contradiction.
  - intros r Hs. apply E4; [now apply Hnx|now apply savesxb_ok].
  - intros r Hs. apply E5. destruct (savesxb r q) eqn:X; [|reflexivity]. apply savesxb_ok in X. contradiction.
Qed.
