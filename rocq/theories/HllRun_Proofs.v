(** From the execution of a condition's lines to the machine, and from the
    structured meaning of a program to the machine. *)
From Coq Require Import String Ascii List ZArith Bool Lia.
From Verif Require Import Base Hll_Model Hll_Spec Hll_Proofs HllTok_Proofs HllDir_Model HllDir_Spec.
Import ListNotations.
Open Scope Z_scope.

Lemma place_app x a b : ~ In x (labels a) -> place x (a ++ b) = option_map (fun q => (length a + q)%nat) (place x b).
Proof.
  induction a as [|l a IH]; intros H; cbn [app place length].
  - cbn. now destruct (place x b).
  - assert (E : is_label x l = false).
    { destruct l; try reflexivity. cbn [is_label]. apply Z.eqb_neq. intros ->. apply H. now left. }
    rewrite E, IH; [now destruct (place x b)|]. intros H1. apply H. destruct l; cbn; auto.
Qed.
Lemma place_here x a b : NoDup (labels (a ++ LLab x :: b)) -> place x (a ++ LLab x :: b) = Some (length a).
Proof.
  intros H. rewrite place_app.
  - cbn. rewrite Z.eqb_refl. cbn. f_equal. lia.
  - intros H1. rewrite labels_app in H. apply NoDup_parts in H as (_ & _ & H). apply (H _ H1). now left.
Qed.
Lemma place_in x p : In x (labels p) -> exists q, place x p = Some q.
Proof.
  induction p as [|l p IH]; [intros []|]. cbn [place]. destruct (is_label x l) eqn:E; [eauto|].
  intros H. destruct IH as [q ->]; [|cbn; eauto]. destruct l; auto. destruct H as [H|H]; auto. cbn in E. subst. now rewrite Z.eqb_refl in E.
Qed.
Lemma nth_here {A} (a b : list A) x : nth_error (a ++ x :: b) (length a) = Some x.
Proof. now apply nth_error_mid. Qed.

Section Machine.
Variable user : nat -> state -> state.
Lemma steps_trans p a b c : steps user p a b -> steps user p b c -> steps user p a c.
Proof. induction 1; [auto|]. intros H1. econstructor; eauto. Qed.
Lemma steps_one p a b : step user p a = Some b -> steps user p a b.
Proof. intros H. econstructor; [exact H|constructor]. Qed.

(** the program counter that goes with a mode *)
Definition conf (P : list line) (at_ : nat) (m : memory) (md : mode) : option (nat * state) :=
  match md with
  | Run f => Some (at_, (m, f))
  | Seek x f => match place x P with Some q => Some (q, (m, f)) | None => None end
  | Stuck => None
  end.
Lemma conf_step P A l B m md c : P = A ++ l :: B -> NoDup (labels P) -> conf P (S (length A)) m (stepl m md l) = Some c ->
  exists c0, conf P (length A) m md = Some c0 /\ steps user P c0 c.
Proof.
  intros -> HN. destruct md as [f|x f|]; cbn [stepl conf].
  - intros H. eexists. split; [reflexivity|]. apply steps_one. unfold step. rewrite nth_here.
    destruct l as [mn a b|c1 c2 x|x|k].
    + destruct (effect m mn a b f); cbn [conf] in H; [exact H|discriminate].
    + destruct (taken c1 c2) as [t|]; [|discriminate]. destruct (t f); exact H.
    + exact H.
    + discriminate.
  - destruct (is_label x l) eqn:E; cbn [conf].
    + destruct l as [| |y|]; try discriminate. cbn in E. apply Z.eqb_eq in E as <-.
      rewrite (place_here x A B HN). intros H. eexists. split; [reflexivity|]. apply steps_one. unfold step. now rewrite nth_here.
    + intros H. exists c. split; [exact H|constructor].
  - discriminate.
Qed.
Lemma conf_exec P m code : forall A B md c, P = A ++ code ++ B -> NoDup (labels P) ->
  conf P (length A + length code) m (exec m code md) = Some c ->
  exists c0, conf P (length A) m md = Some c0 /\ steps user P c0 c.
Proof.
  induction code as [|l code IH]; intros A B md c HP HN H.
  - cbn [length] in H. rewrite Nat.add_0_r in H. exists c. split; [exact H|constructor].
  - rewrite exec_cons in H.
    destruct (IH (A ++ [l]) B (stepl m md l) c) as (c1 & E1 & S1).
    + rewrite HP, <- app_assoc. reflexivity.
    + exact HN.
    + rewrite <- H. f_equal. rewrite app_length. cbn [length]. lia.
    + rewrite app_length, Nat.add_1_r in E1. destruct (conf_step P A l (code ++ B) m md c1) as (c0 & E0 & S0); auto.
      exists c0. split; [exact E0|]. eapply steps_trans; eauto.
Qed.

(** code that jumps to [L] if the condition is [b] *)
Definition ccode (b : bool) (e : cond) (L : Z) (c : list line) : Prop :=
  forall m f, sized m -> exec m c (Run f) = let '(v, f') := eval m e f in if Bool.eqb v b then Seek L f' else Run f'.
Lemma cond_steps P A code B b e L q m f v f' : P = A ++ code ++ B -> NoDup (labels P) -> ccode b e L code -> sized m ->
  eval m e f = (v, f') -> (Bool.eqb v b = true -> place L P = Some q) ->
  steps user P (length A, (m, f)) (if Bool.eqb v b then q else (length A + length code)%nat, (m, f')).
Proof.
  intros HP HN HC Hm He Hq. specialize (HC m f Hm). rewrite He in HC.
  destruct (conf_exec P m code A B (Run f) (if Bool.eqb v b then q else (length A + length code)%nat, (m, f'))) as (c0 & E0 & S0); auto.
  - rewrite HC. destruct (Bool.eqb v b); cbn [conf]; [now rewrite Hq|reflexivity].
  - cbn in E0. assert (c0 = (length A, (m, f))) by congruence. now subst.
Qed.

(** * Code of a program *)
Inductive CP : Z -> Z -> prog -> list line -> Prop :=
| CP_end bk ct : CP bk ct PEnd []
| CP_user bk ct k p c : CP bk ct p c -> CP bk ct (PUser k p) (LUser k :: c)
| CP_if bk ct c t r p L tl x cc cb cr cp : ccode false c L cc -> (tl = [LLab L] \/ tl = [] /\ cc = []) ->
    CP bk ct t cb -> CR bk ct tl x r cr -> CP bk ct p cp -> CP bk ct (PIf c t r p) (cc ++ cb ++ cr ++ lab x ++ cp)
| CP_while bk ct c t p ls lt lx cc cb cp : ccode true c ls cc -> CP lx lt t cb -> CP bk ct p cp ->
    CP bk ct (PWhile c t p) (JMP lt :: LLab ls :: cb ++ LLab lt :: cc ++ lab lx ++ cp)
| CP_loop bk ct c t p ls lx cb cp : (forall m f, eval m c f = (true, f)) -> CP lx ls t cb -> CP bk ct p cp ->
    CP bk ct (PWhile c t p) (LLab ls :: cb ++ JMP ls :: lab lx ++ cp)
| CP_repeat bk ct c t p ls lt lx cc cb cp : ccode false c ls cc -> CP lx lt t cb -> CP bk ct p cp ->
    CP bk ct (PRepeat t c p) (LLab ls :: cb ++ lab lt ++ cc ++ lab lx ++ cp)
| CP_break bk ct p cp : bk <> 0 -> CP bk ct p cp -> CP bk ct (PBreak None p) (JMP bk :: cp)
| CP_break_if bk ct c p cc cp : bk <> 0 -> ccode true c bk cc -> CP bk ct p cp -> CP bk ct (PBreak (Some c) p) (cc ++ cp)
| CP_continue bk ct p cp : ct <> 0 -> CP bk ct p cp -> CP bk ct (PContinue None p) (JMP ct :: cp)
| CP_continue_if bk ct c p cc cp : ct <> 0 -> ccode true c ct cc -> CP bk ct p cp -> CP bk ct (PContinue (Some c) p) (cc ++ cp)
with CR : Z -> Z -> list line -> Z -> rest -> list line -> Prop :=
| CR_none bk ct tl x : CR bk ct tl x RNone tl
| CR_else bk ct tl x t cb : x <> 0 -> CP bk ct t cb -> CR bk ct tl x (RElse t) (JMP x :: tl ++ cb)
| CR_elseif bk ct tl x c t r L cc cb cr : x <> 0 -> ccode false c L cc -> CP bk ct t cb -> CR bk ct [LLab L] x r cr ->
    CR bk ct tl x (RElseIf c t r) (JMP x :: tl ++ cc ++ cb ++ cr).
Scheme CP_mind := Minimality for CP Sort Prop with CR_mind := Minimality for CR Sort Prop.
Combined Scheme CP_CR_ind from CP_mind, CR_mind.

Lemma user_step P A k B s : P = A ++ LUser k :: B -> steps user P (length A, s) (S (length A), user k s).
Proof. intros ->. apply steps_one. destruct s as [m f]. unfold step. now rewrite nth_here. Qed.
Lemma lab_step P A x B s : P = A ++ LLab x :: B -> steps user P (length A, s) (S (length A), s).
Proof. intros ->. apply steps_one. destruct s as [m f]. unfold step. now rewrite nth_here. Qed.
Lemma lab_steps P A x B s : P = A ++ lab x ++ B -> steps user P (length A, s) ((length A + length (lab x))%nat, s).
Proof.
  unfold lab. destruct (x =? 0); intros H; cbn [length].
  - rewrite Nat.add_0_r. constructor.
  - rewrite Nat.add_1_r. eapply lab_step. exact H.
Qed.
Lemma jmp_step P A x B s q : P = A ++ JMP x :: B -> place x P = Some q -> steps user P (length A, s) (q, s).
Proof. intros -> H. apply steps_one. destruct s as [m f]. unfold step. rewrite nth_here. cbn. now rewrite H. Qed.
Lemma place_lab P A x B : P = A ++ lab x ++ B -> NoDup (labels P) -> x <> 0 -> place x P = Some (length A).
Proof. unfold lab. intros -> HN Hx. apply Z.eqb_neq in Hx. rewrite Hx in *. now apply place_here. Qed.

Definition target (P : list line) (bk ct : Z) (e : nat) (o : outcome) (q : nat) : Prop :=
  match o with Normal => q = e | Broke => bk <> 0 /\ place bk P = Some q | Continued => ct <> 0 /\ place ct P = Some q end.
Definition defined (P : list line) (x : Z) : Prop := x <> 0 -> exists q, place x P = Some q.
Hypothesis user_sized : forall k m f, sized m -> sized (fst (user k (m, f))).

Definition S_runs (p : prog) (s : state) (o : outcome) (s' : state) : Prop :=
  forall bk ct code P A B, CP bk ct p code -> P = A ++ code ++ B -> NoDup (labels P) -> defined P bk -> defined P ct -> sized (fst s) ->
    sized (fst s') /\ exists q, target P bk ct (length A + length code) o q /\ steps user P (length A, s) (q, s').
Definition S_branch (c : cond) (t : prog) (r : rest) (s : state) (o : outcome) (s' : state) : Prop :=
  forall bk ct L tl x cc cb cr P A B, ccode false c L cc -> (tl = [LLab L] \/ tl = [] /\ cc = []) -> CP bk ct t cb -> CR bk ct tl x r cr ->
    P = A ++ (cc ++ cb ++ cr) ++ lab x ++ B -> NoDup (labels P) -> defined P bk -> defined P ct -> sized (fst s) ->
    sized (fst s') /\ exists q, target P bk ct (length A + length (cc ++ cb ++ cr)) o q /\ steps user P (length A, s) (q, s').
(** [ls]: the start of the loop, [q]: the test, [e]: the end *)
Definition S_while (c : cond) (t : prog) (s s' : state) : Prop :=
  forall lx lt cb P A B q e, P = A ++ cb ++ B -> NoDup (labels P) -> CP lx lt t cb ->
    (forall m f v f', sized m -> eval m c f = (v, f') -> steps user P (q, (m, f)) (if v then length A else e, (m, f'))) ->
    (forall s, steps user P ((length A + length cb)%nat, s) (q, s)) ->
    (lx <> 0 -> place lx P = Some e) -> (lt <> 0 -> place lt P = Some q) -> sized (fst s) ->
    sized (fst s') /\ steps user P (q, s) (e, s').
Definition S_repeat (t : prog) (c : cond) (s s' : state) : Prop :=
  forall lx lt cb P A B q e, P = A ++ cb ++ B -> NoDup (labels P) -> CP lx lt t cb ->
    (forall m f v f', sized m -> eval m c f = (v, f') -> steps user P (q, (m, f)) (if v then e else length A, (m, f'))) ->
    q = (length A + length cb)%nat ->
    (lx <> 0 -> place lx P = Some e) -> (lt <> 0 -> place lt P = Some q) -> sized (fst s) ->
    sized (fst s') /\ steps user P (length A, s) (e, s').

Ltac prg := do 5 (rewrite <- ?app_assoc; cbn [app]); reflexivity.
Ltac len := do 6 (rewrite ?app_length; cbn [length]); lia.

Lemma simulation :
  (forall p s o s', runs user p s o s' -> S_runs p s o s') /\
  (forall c t r s o s', branch user c t r s o s' -> S_branch c t r s o s') /\
  (forall c t s s', while_loop user c t s s' -> S_while c t s s') /\
  (forall t c s s', repeat_loop user t c s s' -> S_repeat t c s s').
Proof.
  apply meaning_ind.
  - (* end *) intros s bk ct code P A B HC HP HN Hb Hc Hs. inversion HC; subst. split; [exact Hs|].
    exists (length A). split; [cbn; lia|constructor].
  - (* user *) intros k p s o s' _ IH bk ct code P A B HC HP HN Hb Hc Hs. inversion HC as [|? ? ? ? c0 H1| | | | | | | |]; subst.
    destruct (IH bk ct c0 (A ++ (LUser k :: c0) ++ B) (A ++ [LUser k]) B) as (H2 & q & H3 & H4); auto.
    { prg. }
    { destruct s as [m f]. now apply user_sized. }
    split; [exact H2|]. exists q. split.
    + destruct o; auto. cbn in H3 |- *. rewrite H3. len.
    + eapply steps_trans; [eapply user_step; prg|]. replace (S (length A)) with (length (A ++ [LUser k])) by len. exact H4.
  - (* if *) intros c t r p s s1 o s' _ IHb _ IHp bk ct code P A B HC HP HN Hb Hc Hs. inversion HC as [| |? ? ? ? ? ? L tl x cc cb cr cp H1 H2 H3 H4 H5| | | | | | |]; subst.
    destruct (IHb bk ct L tl x cc cb cr (A ++ (cc ++ cb ++ cr ++ lab x ++ cp) ++ B) A (cp ++ B)) as (K1 & q & K2 & K3); auto.
    { prg. }
    destruct (IHp bk ct cp (A ++ (cc ++ cb ++ cr ++ lab x ++ cp) ++ B) (A ++ (cc ++ cb ++ cr) ++ lab x) B) as (M1 & q2 & M2 & M3); auto.
    { prg. }
    split; [exact M1|]. exists q2. split.
    + destruct o; auto. cbn in M2 |- *. rewrite M2. len.
    + eapply steps_trans; [exact K3|]. eapply steps_trans; [|exact M3]. cbn in K2. subst q.
      replace (length A + length (cc ++ cb ++ cr))%nat with (length (A ++ cc ++ cb ++ cr)) by len.
      replace (length (A ++ (cc ++ cb ++ cr) ++ lab x)) with (length (A ++ cc ++ cb ++ cr) + length (lab x))%nat by len.
      eapply lab_steps. prg.
  - (* if, left *) intros c t r p s o s' _ IHb Ho bk ct code P A B HC HP HN Hb Hc Hs. inversion HC as [| |? ? ? ? ? ? L tl x cc cb cr cp H1 H2 H3 H4 H5| | | | | | |]; subst.
    destruct (IHb bk ct L tl x cc cb cr (A ++ (cc ++ cb ++ cr ++ lab x ++ cp) ++ B) A (cp ++ B)) as (K1 & q & K2 & K3); auto.
    { prg. }
    split; [exact K1|]. exists q. split; [|exact K3]. destruct o; [congruence|exact K2|exact K2].
  - (* while *) intros c t p s s1 o s' _ IHw _ IHp bk ct code P A B HC HP HN Hb Hc Hs. inversion HC as [| | |? ? ? ? ? ls lt lx cc cb cp H1 H2 H3|? ? ? ? ? ls lx cb cp H1 H2 H3| | | | |]; subst.
    + set (P := A ++ (JMP lt :: LLab ls :: cb ++ LLab lt :: cc ++ lab lx ++ cp) ++ B) in *.
      set (A1 := A ++ [JMP lt; LLab ls]). set (A2 := A1 ++ cb). set (A3 := A2 ++ [LLab lt]). set (A4 := A3 ++ cc). set (A5 := A4 ++ lab lx).
      assert (P1 : P = A1 ++ cb ++ (LLab lt :: cc ++ lab lx ++ cp ++ B)) by (unfold P, A1; prg).
      assert (P2 : P = A2 ++ LLab lt :: (cc ++ lab lx ++ cp ++ B)) by (unfold A2; rewrite P1; prg).
      assert (P3 : P = A3 ++ cc ++ (lab lx ++ cp ++ B)) by (unfold A3; rewrite P2; prg).
      assert (P4 : P = A4 ++ lab lx ++ (cp ++ B)) by (unfold A4; rewrite P3; prg).
      assert (P5 : P = A5 ++ cp ++ B) by (unfold A5; rewrite P4; prg).
      assert (P0 : P = (A ++ [JMP lt]) ++ LLab ls :: (cb ++ LLab lt :: cc ++ lab lx ++ cp ++ B)) by (unfold P; prg).
      assert (Pl : place lt P = Some (length A2)) by (rewrite P2; apply place_here; now rewrite <- P2).
      assert (Ps : place ls P = Some (length (A ++ [JMP lt]))) by (rewrite P0; apply place_here; now rewrite <- P0).
      destruct (IHw lx lt cb P A1 (LLab lt :: cc ++ lab lx ++ cp ++ B) (length A2) (length A4)) as (K1 & K2); auto.
      { intros m f v f' Hm He. eapply steps_trans; [eapply lab_step; exact P2|].
        replace (S (length A2)) with (length A3) by (unfold A3; len).
        pose proof (cond_steps P A3 cc _ true c ls (length (A ++ [JMP lt])) m f v f' P3 HN H1 Hm He (fun _ => Ps)) as CS.
        destruct v; cbn [Bool.eqb] in CS.
        - eapply steps_trans; [exact CS|]. replace (length A1) with (S (length (A ++ [JMP lt]))) by (unfold A1; len). eapply lab_step; exact P0.
        - replace (length A4) with (length A3 + length cc)%nat by (unfold A4; len). exact CS. }
      { intros s0. replace (length A1 + length cb)%nat with (length A2) by (unfold A2; len). constructor. }
      { intros Hx. eapply place_lab; eauto. }
      destruct (IHp bk ct cp P A5 B) as (M1 & q & M2 & M3); auto.
      split; [exact M1|]. exists q. split.
      { destruct o; auto. cbn in M2 |- *. rewrite M2. unfold A5, A4, A3, A2, A1. len. }
      eapply steps_trans; [eapply (jmp_step P A lt); [unfold P; prg|exact Pl]|]. eapply steps_trans; [exact K2|].
      eapply steps_trans; [eapply lab_steps; exact P4|]. replace (length A4 + length (lab lx))%nat with (length A5) by (unfold A5; len). exact M3.
    + set (P := A ++ (LLab ls :: cb ++ JMP ls :: lab lx ++ cp) ++ B) in *.
      set (A1 := A ++ [LLab ls]). set (A2 := A1 ++ cb). set (A4 := A2 ++ [JMP ls]). set (A5 := A4 ++ lab lx).
      assert (P0 : P = A ++ LLab ls :: (cb ++ JMP ls :: lab lx ++ cp ++ B)) by (unfold P; prg).
      assert (P1 : P = A1 ++ cb ++ (JMP ls :: lab lx ++ cp ++ B)) by (unfold P, A1; prg).
      assert (P2 : P = A2 ++ JMP ls :: (lab lx ++ cp ++ B)) by (unfold A2; rewrite P1; prg).
      assert (P4 : P = A4 ++ lab lx ++ (cp ++ B)) by (unfold A4; rewrite P2; prg).
      assert (P5 : P = A5 ++ cp ++ B) by (unfold A5; rewrite P4; prg).
      assert (Ps : place ls P = Some (length A)) by (rewrite P0; apply place_here; now rewrite <- P0).
      destruct (IHw lx ls cb P A1 (JMP ls :: lab lx ++ cp ++ B) (length A) (length A4)) as (K1 & K2); auto.
      { intros m f v f' Hm He. rewrite H1 in He. apply pair_equal_spec in He as [<- <-].
        replace (length A1) with (S (length A)) by (unfold A1; len). eapply lab_step; exact P0. }
      { intros s0. replace (length A1 + length cb)%nat with (length A2) by (unfold A2; len). eapply jmp_step; [exact P2|exact Ps]. }
      { intros Hx. eapply place_lab; eauto. }
      destruct (IHp bk ct cp P A5 B) as (M1 & q & M2 & M3); auto.
      split; [exact M1|]. exists q. split.
      { destruct o; auto. cbn in M2 |- *. rewrite M2. unfold A5, A4, A2, A1. len. }
      eapply steps_trans; [exact K2|].
      eapply steps_trans; [eapply lab_steps; exact P4|]. replace (length A4 + length (lab lx))%nat with (length A5) by (unfold A5; len). exact M3.
  - (* repeat *) intros t c p s s1 o s' _ IHw _ IHp bk ct code P A B HC HP HN Hb Hc Hs. inversion HC as [| | | | |? ? ? ? ? ls lt lx cc cb cp H1 H2 H3| | | |]; subst.
    set (P := A ++ (LLab ls :: cb ++ lab lt ++ cc ++ lab lx ++ cp) ++ B) in *.
    set (A1 := A ++ [LLab ls]). set (A2 := A1 ++ cb). set (A3 := A2 ++ lab lt). set (A4 := A3 ++ cc). set (A5 := A4 ++ lab lx).
    assert (P0 : P = A ++ LLab ls :: (cb ++ lab lt ++ cc ++ lab lx ++ cp ++ B)) by (unfold P; prg).
    assert (P1 : P = A1 ++ cb ++ (lab lt ++ cc ++ lab lx ++ cp ++ B)) by (unfold P, A1; prg).
    assert (P2 : P = A2 ++ lab lt ++ (cc ++ lab lx ++ cp ++ B)) by (unfold A2; rewrite P1; prg).
    assert (P3 : P = A3 ++ cc ++ (lab lx ++ cp ++ B)) by (unfold A3; rewrite P2; prg).
    assert (P4 : P = A4 ++ lab lx ++ (cp ++ B)) by (unfold A4; rewrite P3; prg).
    assert (P5 : P = A5 ++ cp ++ B) by (unfold A5; rewrite P4; prg).
    assert (Ps : place ls P = Some (length A)) by (rewrite P0; apply place_here; now rewrite <- P0).
    destruct (IHw lx lt cb P A1 (lab lt ++ cc ++ lab lx ++ cp ++ B) (length A2) (length A4)) as (K1 & K2); auto.
    { intros m f v f' Hm He. eapply steps_trans; [eapply lab_steps; exact P2|].
      replace (length A2 + length (lab lt))%nat with (length A3) by (unfold A3; len).
      pose proof (cond_steps P A3 cc _ false c ls (length A) m f v f' P3 HN H1 Hm He (fun _ => Ps)) as CS.
      destruct v; cbn [Bool.eqb] in CS.
      - replace (length A4) with (length A3 + length cc)%nat by (unfold A4; len). exact CS.
      - eapply steps_trans; [exact CS|]. replace (length A1) with (S (length A)) by (unfold A1; len). eapply lab_step; exact P0. }
    { unfold A2. len. }
    { intros Hx. eapply place_lab; eauto. }
    { intros Hx. eapply place_lab; eauto. }
    destruct (IHp bk ct cp P A5 B) as (M1 & q & M2 & M3); auto.
    split; [exact M1|]. exists q. split.
    { destruct o; auto. cbn in M2 |- *. rewrite M2. unfold A5, A4, A3, A2, A1. len. }
    eapply steps_trans; [eapply lab_step; exact P0|]. replace (S (length A)) with (length A1) by (unfold A1; len). eapply steps_trans; [exact K2|].
    eapply steps_trans; [eapply lab_steps; exact P4|]. replace (length A4 + length (lab lx))%nat with (length A5) by (unfold A5; len). exact M3.
  - (* break *) intros p s bk ct code P A B HC HP HN Hb Hc Hs. inversion HC; subst. split; [exact Hs|].
    destruct (Hb ltac:(assumption)) as [q Eq]. exists q. split; [split; assumption|]. eapply jmp_step; [prg|exact Eq].
  - intros c p m f f' He bk ct code P A B HC HP HN Hb Hc Hs. inversion HC as [| | | | | | |? ? ? ? cc cp H1 H2 H3| |]; subst. split; [exact Hs|].
    destruct (Hb H1) as [q Eq]. exists q. split; [split; assumption|].
    refine (cond_steps _ A cc (cp ++ B) true c bk q m f true f' _ HN H2 Hs He (fun _ => Eq)). prg.
  - intros c p m f f' o s' He _ IH bk ct code P A B HC HP HN Hb Hc Hs. inversion HC as [| | | | | | |? ? ? ? cc cp H1 H2 H3| |]; subst.
    destruct (IH bk ct cp (A ++ (cc ++ cp) ++ B) (A ++ cc) B) as (K1 & q & K2 & K3); auto.
    { prg. }
    split; [exact K1|]. exists q. split.
    { destruct o; auto. cbn in K2 |- *. rewrite K2. len. }
    eapply steps_trans; [|exact K3]. rewrite app_length.
    refine (cond_steps _ A cc (cp ++ B) true c bk 0%nat m f false f' _ HN H2 Hs He _); [prg|discriminate].
  - (* continue *) intros p s bk ct code P A B HC HP HN Hb Hc Hs. inversion HC; subst. split; [exact Hs|].
    destruct (Hc ltac:(assumption)) as [q Eq]. exists q. split; [split; assumption|]. eapply jmp_step; [prg|exact Eq].
  - intros c p m f f' He bk ct code P A B HC HP HN Hb Hc Hs. inversion HC as [| | | | | | | | |? ? ? ? cc cp H1 H2 H3]; subst. split; [exact Hs|].
    destruct (Hc H1) as [q Eq]. exists q. split; [split; assumption|].
    refine (cond_steps _ A cc (cp ++ B) true c ct q m f true f' _ HN H2 Hs He (fun _ => Eq)). prg.
  - intros c p m f f' o s' He _ IH bk ct code P A B HC HP HN Hb Hc Hs. inversion HC as [| | | | | | | | |? ? ? ? cc cp H1 H2 H3]; subst.
    destruct (IH bk ct cp (A ++ (cc ++ cp) ++ B) (A ++ cc) B) as (K1 & q & K2 & K3); auto.
    { prg. }
    split; [exact K1|]. exists q. split.
    { destruct o; auto. cbn in K2 |- *. rewrite K2. len. }
    eapply steps_trans; [|exact K3]. rewrite app_length.
    refine (cond_steps _ A cc (cp ++ B) true c ct 0%nat m f false f' _ HN H2 Hs He _); [prg|discriminate].
  - (* then *) intros c t r m f f' o s' He _ IH bk ct L tl x cc cb cr P A B H1 H2 H3 H4 HP HN Hb Hc Hs.
    destruct (IH bk ct cb P (A ++ cc) (cr ++ lab x ++ B)) as (K1 & q & K2 & K3); auto.
    { rewrite HP. prg. }
    assert (St : steps user P (length A, (m, f)) (q, s')).
    { eapply steps_trans; [|exact K3]. rewrite app_length.
      refine (cond_steps P A cc ((cb ++ cr) ++ lab x ++ B) false c L 0%nat m f true f' _ HN H1 Hs He _); [rewrite HP; prg|discriminate]. }
    split; [exact K1|]. destruct o; [|exists q; split; assumption|exists q; split; assumption].
    cbn in K2. subst q. eexists. split; [reflexivity|]. eapply steps_trans; [exact St|].
    replace (length (A ++ cc) + length cb)%nat with (length (A ++ cc ++ cb)) by len.
    assert (J : x <> 0 -> place x P = Some (length A + length (cc ++ cb ++ cr))%nat).
    { intros Hx. replace (length A + length (cc ++ cb ++ cr))%nat with (length (A ++ cc ++ cb ++ cr)) by len.
      eapply place_lab; [rewrite HP; prg|exact HN|exact Hx]. }
    inversion H4 as [|? ? ? ? ? cb2 X1 X2|? ? ? ? ? ? ? L2 cc2 cb2 cr2 X1 X2 X3 X4]; subst.
    + destruct H2 as [-> | [-> ->]].
      * replace (length A + length (cc ++ cb ++ [LLab L]))%nat with (S (length (A ++ cc ++ cb))) by len. eapply lab_step. prg.
      * rewrite app_nil_r. replace (length (A ++ [] ++ cb)) with (length A + length ([] ++ cb))%nat by len. constructor.
    + eapply jmp_step; [|exact (J X1)]. prg.
    + eapply jmp_step; [|exact (J X1)]. prg.
  - (* no else *) intros c t m f f' He bk ct L tl x cc cb cr P A B H1 H2 H3 H4 HP HN Hb Hc Hs. split; [exact Hs|].
    inversion H4; subst cr. subst. eexists. split; [reflexivity|].
    destruct H2 as [-> | [-> ->]].
    + replace (length A + length (cc ++ cb ++ [LLab L]))%nat with (S (length (A ++ cc ++ cb))) by len.
      eapply steps_trans; [|eapply lab_step; prg].
      refine (cond_steps _ A cc (cb ++ [LLab L] ++ lab x ++ B) false c L _ m f false f' _ HN H1 Hs He _); [prg|].
      intros _. replace (A ++ (cc ++ cb ++ [LLab L]) ++ lab x ++ B) with ((A ++ cc ++ cb) ++ LLab L :: (lab x ++ B)) in * by prg. apply place_here. exact HN.
    + specialize (H1 m f Hs). rewrite He in H1. discriminate.
  - (* else *) intros c t e m f f' o s' He _ IH bk ct L tl x cc cb cr P A B H1 H2 H3 H4 HP HN Hb Hc Hs.
    inversion H4 as [|? ? ? ? ? ce X1 X2|]; subst cr. subst bk0 ct0 tl0 x0 t0.
    assert (tl = [LLab L]) as ->.
    { destruct H2 as [H2|[-> ->]]; [exact H2|]. specialize (H1 m f Hs). rewrite He in H1. discriminate. }
    destruct (IH bk ct ce P (A ++ cc ++ cb ++ [JMP x; LLab L]) (lab x ++ B)) as (K1 & q & K2 & K3); auto.
    { rewrite HP. prg. }
    split; [exact K1|]. exists q. split.
    { destruct o; auto. cbn in K2 |- *. rewrite K2. len. }
    eapply steps_trans; [|exact K3].
    assert (PL : P = (A ++ cc ++ cb ++ [JMP x]) ++ LLab L :: (ce ++ lab x ++ B)) by (rewrite HP; prg).
    replace (length (A ++ cc ++ cb ++ [JMP x; LLab L])) with (S (length (A ++ cc ++ cb ++ [JMP x]))) by len.
    eapply steps_trans; [|eapply lab_step; exact PL].
    refine (cond_steps P A cc (cb ++ JMP x :: LLab L :: (ce ++ lab x ++ B)) false c L _ m f false f' _ HN H1 Hs He _); [rewrite HP; prg|].
    intros _. rewrite PL. apply place_here. now rewrite <- PL.
  - (* elseif *) intros c t c2 t2 r2 m f f' o s' He _ IH bk ct L tl x cc cb cr P A B H1 H2 H3 H4 HP HN Hb Hc Hs.
    inversion H4 as [| |? ? ? ? ? ? ? L2 cc2 cb2 cr2 X1 X2 X3 X4]; subst cr. subst bk0 ct0 tl0 x0 c0 t0 r.
    assert (tl = [LLab L]) as ->.
    { destruct H2 as [H2|[-> ->]]; [exact H2|]. specialize (H1 m f Hs). rewrite He in H1. discriminate. }
    destruct (IH bk ct L2 [LLab L2] x cc2 cb2 cr2 P (A ++ cc ++ cb ++ [JMP x; LLab L]) B) as (K1 & q & K2 & K3); auto.
    { rewrite HP. prg. }
    split; [exact K1|]. exists q. split.
    { destruct o; auto. cbn in K2 |- *. rewrite K2. len. }
    eapply steps_trans; [|exact K3].
    assert (PL : P = (A ++ cc ++ cb ++ [JMP x]) ++ LLab L :: ((cc2 ++ cb2 ++ cr2) ++ lab x ++ B)) by (rewrite HP; prg).
    replace (length (A ++ cc ++ cb ++ [JMP x; LLab L])) with (S (length (A ++ cc ++ cb ++ [JMP x]))) by len.
    eapply steps_trans; [|eapply lab_step; exact PL].
    refine (cond_steps P A cc (cb ++ JMP x :: LLab L :: ((cc2 ++ cb2 ++ cr2) ++ lab x ++ B)) false c L _ m f false f' _ HN H1 Hs He _); [rewrite HP; prg|].
    intros _. rewrite PL. apply place_here. now rewrite <- PL.
  - (* while, stop *) intros c t m f f' He lx lt cb P A B q e HP HN HC Ht Hb Hx Hl Hs. split; [exact Hs|]. exact (Ht m f false f' Hs He).
  - (* while, again *) intros c t m f f' o s1 s' He _ IHt Ho _ IHw lx lt cb P A B q e HP HN HC Ht Hb Hx Hl Hs.
    destruct (IHt lx lt cb P A B) as (K1 & q1 & K2 & K3); auto.
    { intros H. eauto. } { intros H. eauto. }
    destruct (IHw lx lt cb P A B q e) as (M1 & M2); auto. split; [exact M1|].
    eapply steps_trans; [exact (Ht m f true f' Hs He)|]. eapply steps_trans; [exact K3|]. eapply steps_trans; [|exact M2].
    destruct o; [|congruence|].
    + cbn in K2. subst q1. apply Hb.
    + destruct K2 as [K2 K4]. rewrite (Hl K2) in K4. assert (q1 = q) by congruence. subst. constructor.
  - (* while, break *) intros c t m f f' s' He _ IHt lx lt cb P A B q e HP HN HC Ht Hb Hx Hl Hs.
    destruct (IHt lx lt cb P A B) as (K1 & q1 & [K2 K4] & K3); auto.
    { intros H. eauto. } { intros H. eauto. }
    split; [exact K1|]. rewrite (Hx K2) in K4. assert (q1 = e) by congruence. subst.
    eapply steps_trans; [exact (Ht m f true f' Hs He)|exact K3].
  - (* repeat, stop *) intros t c s o m f f' _ IHt Ho He lx lt cb P A B q e HP HN HC Ht Hb Hx Hl Hs.
    destruct (IHt lx lt cb P A B) as (K1 & q1 & K2 & K3); auto.
    { intros H. eauto. } { intros H. eauto. }
    split; [exact K1|]. eapply steps_trans; [exact K3|]. assert (q1 = q) as ->.
    { destruct o; [cbn in K2; lia|congruence|]. destruct K2 as [K2 K4]. rewrite (Hl K2) in K4. congruence. }
    exact (Ht m f true f' K1 He).
  - (* repeat, again *) intros t c s o m f f' s' _ IHt Ho He _ IHw lx lt cb P A B q e HP HN HC Ht Hb Hx Hl Hs.
    destruct (IHt lx lt cb P A B) as (K1 & q1 & K2 & K3); auto.
    { intros H. eauto. } { intros H. eauto. }
    destruct (IHw lx lt cb P A B q e) as (M1 & M2); auto.
    split; [exact M1|]. eapply steps_trans; [exact K3|]. assert (q1 = q) as ->.
    { destruct o; [cbn in K2; lia|congruence|]. destruct K2 as [K2 K4]. rewrite (Hl K2) in K4. congruence. }
    eapply steps_trans; [exact (Ht m f false f' K1 He)|exact M2].
  - (* repeat, break *) intros t c s s' _ IHt lx lt cb P A B q e HP HN HC Ht Hb Hx Hl Hs.
    destruct (IHt lx lt cb P A B) as (K1 & q1 & [K2 K4] & K3); auto.
    { intros H. eauto. } { intros H. eauto. }
    split; [exact K1|]. rewrite (Hx K2) in K4. assert (q1 = e) by congruence. now subst.
Qed.
End Machine.
