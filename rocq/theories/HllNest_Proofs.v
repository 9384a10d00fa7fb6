(** Accepted directives are properly nested. *)
From Coq Require Import String Ascii List ZArith Bool Lia.
From Verif Require Import Base Hll_Model Hll_Spec HllDir_Model HllDir_Spec.
Import ListNotations.
Open Scope Z_scope.

Definition frame : Type := hll_cmd * bool.
Definition fr (it : item) : frame := (i_cmd it, i_else it).
Definition shape (h : hst) : list frame := map fr (stack h).
Definition inl (s : list frame) : bool := existsb (fun f => match fst f with HLL_IF => false | _ => true end) s.
Definition astep (s : list frame) (d : dir) : option (list frame) :=
  match d, s with
  | DUser _, _ => Some s
  | DIf _, _ => Some ((HLL_IF, false) :: s)
  | DWhile _, _ => Some ((HLL_WHILE, false) :: s)
  | DRepeat, _ => Some ((HLL_REPEAT, false) :: s)
  | DElse, (HLL_IF, false) :: s => Some ((HLL_IF, true) :: s)
  | DElseIf _, (HLL_IF, false) :: s => Some ((HLL_IF, false) :: s)
  | DEndif, (HLL_IF, _) :: s => Some s
  | DEndw, (HLL_WHILE, _) :: s => Some s
  | DUntil _, (HLL_REPEAT, _) :: s => Some s
  | DBreak _, _ | DContinue _, _ => if inl s then Some s else None
  | _, _ => None
  end.
Fixpoint arun (s : list frame) (l : list dir) : option (list frame) :=
  match l with [] => Some s | d :: l => match astep s d with Some s => arun s l | None => None end end.

Lemma find_loop_shape s : match find_loop s with
  | Some (a, it, b) => s = a ++ it :: b /\ inl (map fr s) = true
  | None => inl (map fr s) = false end.
Proof.
  induction s as [|i s IH]; [reflexivity|]. cbn [find_loop map inl existsb fr fst]. destruct (i_cmd i) eqn:E; cbn [orb].
  - destruct (find_loop s) as [[[a it] b]|]; [|exact IH]. destruct IH as [-> IH]. split; [reflexivity|exact IH].
  - split; reflexivity.
  - split; reflexivity.
Qed.
Lemma shape_mid a it it' b : fr it' = fr it -> map fr (a ++ it' :: b) = map fr (a ++ it :: b).
Proof. intros H. rewrite !map_app. cbn. now rewrite H. Qed.
Lemma jump_if_stack masm x l h h' : jump_if masm x l h = Ok h' -> stack h' = stack h.
Proof.
  unfold jump_if. destruct l as [l|]; [|intros H; assert (h' = emit h [JMP x]) as -> by congruence; reflexivity].
  destruct (EvaluateHllExpression _ _ _ _ _ _) as [[c k]| |]; cbn [bindr]; try discriminate.
  intros H. assert (h' = emit (with_ctr h k) c) as -> by congruence. reflexivity.
Qed.
Ltac got E := match type of E with Ok ?v = Ok _ => injection E as <- end.
Lemma step_shape masm d h h' : directive masm d h = Ok h' -> astep (shape h) d = Some (shape h').
Proof.
  intros E. destruct d as [k|l|l| | |l| | |l|l|l]; cbn [directive] in E.
  - got E. reflexivity.
  - cbn [HllStartDir new_label] in E. destruct (EvaluateHllExpression _ _ _ _ _ _) as [[c k]| |]; cbn [bindr] in E; try discriminate. got E. reflexivity.
  - cbn [HllExitDir] in E. unfold else_part in E. unfold shape. destruct (stack h) as [|it rest] eqn:Es; [discriminate|]. cbn [map fr astep].
    destruct (i_cmd it) eqn:Ec; try discriminate. destruct (i_else it) eqn:Ee; [discriminate|].
    destruct (if i_exit it =? 0 then new_label h else (i_exit it, h)) as [x h1]. cbn [bindr new_label] in E.
    destruct (EvaluateHllExpression _ _ _ _ _ _) as [[c k]| |]; cbn [bindr] in E; try discriminate. got E.
    cbn. unfold fr. cbn. now rewrite Ec, Ee.
  - cbn [HllExitDir] in E. unfold else_part in E. unfold shape. destruct (stack h) as [|it rest] eqn:Es; [discriminate|]. cbn [map fr astep].
    destruct (i_cmd it) eqn:Ec; try discriminate. destruct (i_else it) eqn:Ee; [discriminate|].
    destruct (if i_exit it =? 0 then new_label h else (i_exit it, h)) as [x h1]. cbn [bindr] in E. got E.
    cbn. unfold fr. cbn. now rewrite Ec.
  - unfold HllEndDir in E. unfold shape. destruct (stack h) as [|it rest] eqn:Es; [discriminate|]. cbn [map fr astep].
    destruct (i_cmd it) eqn:Ec; try discriminate. cbn [bindr] in E. got E. reflexivity.
  - cbn [HllStartDir] in E. destruct l as [|t l].
    + cbn [new_label] in E. got E. reflexivity.
    + cbn [new_label] in E. destruct (EvaluateHllExpression _ _ _ _ _ _) as [[c k]| |]; cbn [bindr] in E; try discriminate.
      destruct (starts_jmp c); cbn [new_label] in E; got E; reflexivity.
  - unfold HllEndDir in E. unfold shape. destruct (stack h) as [|it rest] eqn:Es; [discriminate|]. cbn [map fr astep].
    destruct (i_cmd it) eqn:Ec; try discriminate. cbn [bindr] in E. got E. reflexivity.
  - cbn [HllStartDir new_label] in E. got E. reflexivity.
  - unfold HllEndDir in E. unfold shape. destruct (stack h) as [|it rest] eqn:Es; [discriminate|]. cbn [map fr astep].
    destruct l as [|t l]; (destruct (i_cmd it) eqn:Ec; try discriminate).
    + cbn [bindr] in E. got E. reflexivity.
    + destruct (EvaluateHllExpression _ _ _ _ _ _) as [[c k]| |]; cbn [bindr] in E; try discriminate. got E. reflexivity.
  - cbn [HllExitDir] in E. unfold shape. pose proof (find_loop_shape (stack h)) as F. destruct (find_loop (stack h)) as [[[a it] b]|]; [|discriminate].
    destruct F as [F1 F2]. cbn [astep]. rewrite F2. f_equal. rewrite F1 at 1.
    destruct (if i_exit it =? 0 then new_label h else (i_exit it, h)) as [x h1]. apply jump_if_stack in E. rewrite E. cbn [with_stack stack]. symmetry. now apply shape_mid.
  - cbn [HllExitDir] in E. unfold shape. pose proof (find_loop_shape (stack h)) as F. destruct (find_loop (stack h)) as [[[a it] b]|]; [|discriminate].
    destruct F as [F1 F2]. cbn [astep]. rewrite F2. f_equal. rewrite F1 at 1.
    destruct (match i_cmd it with HLL_REPEAT => if i_test it =? 0 then new_label h else (i_test it, h) | _ => (i_test it, h) end) as [x h1].
    apply jump_if_stack in E. rewrite E. cbn [with_stack stack]. symmetry. now apply shape_mid.
Qed.
Lemma run_shape masm l : forall h h', directives masm l h = Ok h' -> arun (shape h) l = Some (shape h').
Proof.
  induction l as [|d l IH]; intros h h' E; cbn [directives arun] in *.
  - got E. reflexivity.
  - destruct (directive masm d h) as [h1| |] eqn:E1; cbn [bindr] in E; try discriminate. rewrite (step_shape _ _ _ _ E1). now apply IH.
Qed.

(** what the directives that follow have to be *)
Definition follows (s : list frame) (l : list dir) : Prop :=
  match s with
  | [] => nested false l
  | (HLL_IF, false) :: s => exists t r l', l = t ++ r ++ DEndif :: l' /\ nested (inl s) t /\ elses (inl s) r /\ arun s l' = Some []
  | (HLL_IF, true) :: s => exists t l', l = t ++ DEndif :: l' /\ nested (inl s) t /\ arun s l' = Some []
  | (HLL_WHILE, _) :: s => exists t l', l = t ++ DEndw :: l' /\ nested true t /\ arun s l' = Some []
  | (HLL_REPEAT, _) :: s => exists t c l', l = t ++ DUntil c :: l' /\ nested true t /\ arun s l' = Some []
  end.
(** a complete block in front *)
Lemma follows_front s x l : (forall t, nested (inl s) t -> nested (inl s) (x ++ t)) -> follows s l -> follows s (x ++ l).
Proof.
  intros H. destruct s as [|[[| |] [|]] s]; cbn [follows inl existsb fst orb] in *.
  - exact (H l).
  - intros (t & l' & -> & H1 & H2). exists (x ++ t), l'. rewrite <- app_assoc. auto.
  - intros (t & r & l' & -> & H1 & H2 & H3). exists (x ++ t), r, l'. rewrite <- app_assoc. auto.
  - intros (t & l' & -> & H1 & H2). exists (x ++ t), l'. rewrite <- app_assoc. auto.
  - intros (t & l' & -> & H1 & H2). exists (x ++ t), l'. rewrite <- app_assoc. auto.
  - intros (t & c & l' & -> & H1 & H2). exists (x ++ t), c, l'. rewrite <- app_assoc. auto.
  - intros (t & c & l' & -> & H1 & H2). exists (x ++ t), c, l'. rewrite <- app_assoc. auto.
Qed.
Lemma arun_follows n : forall l s, (length l <= n)%nat -> arun s l = Some [] -> follows s l.
Proof.
  induction n as [|n IH]; intros l s Hn E.
  - destruct l; [|cbn in Hn; lia]. cbn in E. assert (s = []) as -> by congruence. constructor.
  - destruct l as [|d l]; [cbn in E; assert (s = []) as -> by congruence; constructor|]. cbn [length] in Hn. cbn [arun] in E.
    destruct d as [k|c|c| | |c| | |c|c|c]; cbn [astep] in E.
    + apply (follows_front s [DUser k]); [intros t Ht; now constructor|]. apply IH; [lia|exact E].
    + pose proof (IH l _ ltac:(lia) E) as (t & r & l' & -> & H1 & H2 & H3). rewrite !app_length in Hn. cbn [length] in Hn.
      replace (DIf c :: t ++ r ++ DEndif :: l') with ((DIf c :: t ++ r ++ [DEndif]) ++ l') by (cbn [app]; rewrite <- !app_assoc; reflexivity).
      apply follows_front; [|apply IH; [lia|exact H3]]. intros t2 Ht2. cbn [app]. rewrite <- !app_assoc. cbn [app]. now constructor.
    + destruct s as [|[[| |] [|]] s]; try discriminate. pose proof (IH l _ ltac:(lia) E) as (t & r & l' & -> & H1 & H2 & H3).
      cbn [follows]. exists [], (DElseIf c :: t ++ r), l'. cbn [app]. rewrite <- !app_assoc. split; [reflexivity|]. split; [constructor|]. split; [now constructor|exact H3].
    + destruct s as [|[[| |] [|]] s]; try discriminate. pose proof (IH l _ ltac:(lia) E) as (t & l' & -> & H1 & H3).
      cbn [follows]. exists [], (DElse :: t), l'. cbn [app]. split; [reflexivity|]. split; [constructor|]. split; [now constructor|exact H3].
    + destruct s as [|[[| |] [|]] s]; try discriminate; cbn [follows].
      * exists [], l. split; [reflexivity|]. split; [constructor|exact E].
      * exists [], [], l. split; [reflexivity|]. split; [constructor|]. split; [constructor|exact E].
    + pose proof (IH l _ ltac:(lia) E) as (t & l' & -> & H1 & H3). rewrite !app_length in Hn. cbn [length] in Hn.
      replace (DWhile c :: t ++ DEndw :: l') with ((DWhile c :: t ++ [DEndw]) ++ l') by (cbn [app]; rewrite <- !app_assoc; reflexivity).
      apply follows_front; [|apply IH; [lia|exact H3]]. intros t2 Ht2. cbn [app]. rewrite <- !app_assoc. cbn [app]. now constructor.
    + destruct s as [|[[| |] b] s]; try discriminate; cbn [follows]. exists [], l. split; [reflexivity|]. split; [constructor|exact E].
    + pose proof (IH l _ ltac:(lia) E) as (t & c & l' & -> & H1 & H3). rewrite !app_length in Hn. cbn [length] in Hn.
      replace (DRepeat :: t ++ DUntil c :: l') with ((DRepeat :: t ++ [DUntil c]) ++ l') by (cbn [app]; rewrite <- !app_assoc; reflexivity).
      apply follows_front; [|apply IH; [lia|exact H3]]. intros t2 Ht2. cbn [app]. rewrite <- !app_assoc. cbn [app]. now constructor.
    + destruct s as [|[[| |] b] s]; try discriminate; cbn [follows]. exists [], c, l. split; [reflexivity|]. split; [constructor|exact E].
    + destruct (inl s) eqn:Ei; [|destruct s; discriminate].
      apply (follows_front s [DBreak c]); [rewrite Ei; intros t Ht; now constructor|]. apply IH; [lia|]. now destruct s.
    + destruct (inl s) eqn:Ei; [|destruct s; discriminate].
      apply (follows_front s [DContinue c]); [rewrite Ei; intros t Ht; now constructor|]. apply IH; [lia|]. now destruct s.
Qed.
Lemma translate_nested masm counter l code : translate masm counter l = Ok code -> nested false l.
Proof.
  unfold translate. intros E. destruct (directives masm l _) as [h| |] eqn:E1; cbn [bindr] in E; try discriminate.
  destruct (stack h) eqn:Es; [|discriminate]. apply run_shape in E1. unfold shape in E1. rewrite Es in E1. exact (arun_follows (length l) l [] ltac:(lia) E1).
Qed.
