(** Proofs about the translation of conditions, part 1: the lines. *)
From Coq Require Import String Ascii List ZArith Bool Lia.
From Verif Require Import Base Hll_Model Hll_Spec.
Import ListNotations.
Open Scope Z_scope.
Local Arguments wrap : simpl never.
Local Arguments swrap : simpl never.
Local Arguments Z.pow : simpl never.

(** execution from the front to the back: either running or looking for a label
    further down *)
Inductive mode := Run (f : flags) | Seek (x : Z) (f : flags) | Stuck.
Definition stepl (m : memory) (md : mode) (l : line) : mode :=
  match md with
  | Stuck => Stuck
  | Seek x f => if is_label x l then Run f else Seek x f
  | Run f =>
      match l with
      | LIns mn a b => match effect m mn a b f with Some f => Run f | None => Stuck end
      | LLab _ => Run f
      | LJ c1 c2 x => match taken c1 c2 with Some t => if t f then Seek x f else Run f | None => Stuck end
      | LUser _ => Stuck
      end
  end.
Definition exec (m : memory) (c : list line) (md : mode) : mode := fold_left (stepl m) c md.
Lemma exec_app m a b md : exec m (a ++ b) md = exec m b (exec m a md).
Proof. apply fold_left_app. Qed.
Lemma exec_cons m l b md : exec m (l :: b) md = exec m b (stepl m md l).
Proof. reflexivity. Qed.

Definition occs (c : list line) : list Z := flat_map (fun l => match l with LLab x => [x] | LJ _ _ x => [x] | _ => [] end) c.
Lemma occs_app a b : occs (a ++ b) = occs a ++ occs b.
Proof. apply flat_map_app. Qed.
Lemma occs_cons l b : occs (l :: b) = occs [l] ++ occs b.
Proof. exact (occs_app [l] b). Qed.
Lemma labels_app a b : labels (a ++ b) = labels a ++ labels b.
Proof. apply flat_map_app. Qed.
Lemma labels_occs c x : In x (labels c) -> In x (occs c).
Proof.
  unfold labels, occs. rewrite !in_flat_map. intros (l & Hl & Hx). exists l. split; [exact Hl|]. destruct l; simpl in *; tauto.
Qed.

Lemma exec_seek m c x f : ~ In x (labels c) -> exec m c (Seek x f) = Seek x f.
Proof.
  induction c as [|l c IH]; intros H; [reflexivity|]. rewrite exec_cons. cbn [stepl].
  replace (is_label x l) with false.
  - apply IH. intros Hx. apply H. change (l :: c) with ([l] ++ c). rewrite labels_app. apply in_or_app. now right.
  - destruct l; cbn; auto. symmetry. apply Z.eqb_neq. intros ->. apply H. cbn. now left.
Qed.

(** renaming *)
Definition renm (o n : Z) (md : mode) : mode := match md with Seek x f => Seek (ren1 o n x) f | _ => md end.
Definition seeks (md : mode) : list Z := match md with Seek x _ => [x] | _ => [] end.
Lemma ren1_eqb o n x y : x <> n -> y <> n -> (ren1 o n x =? ren1 o n y) = (x =? y).
Proof.
  unfold ren1. intros. destruct (Z.eqb_spec x o), (Z.eqb_spec y o); subst; auto.
  - now rewrite !Z.eqb_refl.
  - destruct (Z.eqb_spec n y), (Z.eqb_spec o y); congruence.
  - destruct (Z.eqb_spec x n), (Z.eqb_spec x o); congruence.
Qed.
Lemma exec_ren m o n c : forall md, ~ In n (occs c) -> ~ In n (seeks md) ->
  exec m (map (ren o n) c) (renm o n md) = renm o n (exec m c md).
Proof.
  induction c as [|l c IH]; intros md H1 H2; [reflexivity|].
  rewrite occs_cons in H1.
  cbn [map]. rewrite !exec_cons.
  assert (E : stepl m (renm o n md) (ren o n l) = renm o n (stepl m md l) /\ ~ In n (seeks (stepl m md l))).
  { destruct md as [f|x f|]; cbn [renm stepl seeks].
    - destruct l as [mn a b|c1 c2 x|x|k]; cbn [ren].
      4: split; auto.
      + destruct (effect m mn a b f); split; auto.
      + destruct (taken c1 c2) as [t|]; [|split; auto]. destruct (t f); split; auto. cbn. intros [->|[]]. apply H1. apply in_or_app. left. now left.
      + split; auto.
    - destruct l as [mn a b|c1 c2 y|y|k]; cbn [ren is_label].
      4: split; auto.
      + split; auto.
      + split; auto.
      + rewrite ren1_eqb.
        * destruct (x =? y); split; auto.
        * intros ->. apply H2. now left.
        * intros ->. apply H1. apply in_or_app. left. now left.
    - split; auto. }
  destruct E as [E1 E2]. rewrite E1. apply IH; auto. intros Hn. apply H1. apply in_or_app. now right.
Qed.
Lemma ren_id o n c : ~ In o (occs c) -> map (ren o n) c = c.
Proof.
  induction c as [|l c IH]; intros H; [reflexivity|]. rewrite occs_cons in H.
  cbn [map]. rewrite IH by (intros Hx; apply H; apply in_or_app; now right). f_equal.
  destruct l as [mn a b|c1 c2 x|x|k]; cbn [ren]; auto; unfold ren1.
  - destruct (Z.eqb_spec x o); auto. subst. exfalso. apply H. now left.
  - destruct (Z.eqb_spec x o); auto. subst. exfalso. apply H. now left.
Qed.
Lemma occs_ren o n c : occs (map (ren o n) c) = map (ren1 o n) (occs c).
Proof. induction c as [|[mn a b|c1 c2 x|x|k] c IH]; cbn; auto; f_equal; exact IH. Qed.
Lemma labels_ren o n c : labels (map (ren o n) c) = map (ren1 o n) (labels c).
Proof. induction c as [|[mn a b|c1 c2 x|x|k] c IH]; cbn; auto; f_equal; exact IH. Qed.
Lemma NoDup_ren o n l : NoDup l -> ~ In n l -> NoDup (map (ren1 o n) l).
Proof.
  induction 1 as [|x l Hx Hl IH]; intros Hn; cbn; constructor.
  - rewrite in_map_iff. intros (y & Hy & Hin). apply Hx.
    assert (x = y); [|congruence]. apply Z.eqb_eq. rewrite <- (ren1_eqb o n).
    + rewrite Hy. apply Z.eqb_refl.
    + intros ->. apply Hn. now left.
    + intros ->. apply Hn. now right.
  - apply IH. intros H. apply Hn. now right.
Qed.
Lemma in_ren o n l x : In x (map (ren1 o n) l) -> (x = n /\ In o l) \/ (In x l /\ x <> o).
Proof.
  rewrite in_map_iff. intros (y & <- & Hy). unfold ren1. destruct (Z.eqb_spec y o); subst; auto.
Qed.

(** jumps and their inverses *)
Definition inv_ok (c1 c2 : ascii) (K : flags -> bool) : Prop :=
  taken c1 c2 = Some K /\
  match InvertJump c1 c2 with
  | None => forall f, K f = true
  | Some (d1, d2) => exists K', taken d1 d2 = Some K' /\ forall f, K' f = negb (K f)
  end.
Definition negif (neg : bool) (x : bool) : bool := if neg then negb x else x.
(** condition letters used *)
Definition letter (cc : ascii) (f : flags) : bool :=
  match taken cc space with Some t => t f | None => false end.
Definition letters : list ascii := ["z"; "c"; "s"; "p"; "o"; "l"; "g"; "a"; "e"; "b"]%char.
Lemma inv_ok_render cc neg L : In cc letters ->
  exists c1 c2 K, RenderJcc cc neg L = LJ c1 c2 L /\ inv_ok c1 c2 K /\ forall f, K f = negif neg (letter cc f).
Proof.
  intros H. repeat (destruct H as [<-|H]; [destruct neg; cbn [RenderJcc]; do 3 eexists; (split; [reflexivity|]);
    (split; [split; [reflexivity|]; cbn; eexists; (split; [reflexivity|]); intros f; cbn;
       destruct (fC f), (fZ f), (fS f), (fO f), (fP f); reflexivity|
      intros f; cbn; destruct (fC f), (fZ f), (fS f), (fO f), (fP f); reflexivity])|]).
  destruct H.
Qed.
Lemma inv_ok_jmp : inv_ok "m" "p" (fun _ => true).
Proof. split; [reflexivity|]. cbn. reflexivity. Qed.

(** * Code of a condition *)
Definition is_jmp (l : line) : bool := match l with LJ c1 c2 _ => Ascii.eqb c1 "m" && Ascii.eqb c2 "p" | _ => false end.
Definition nojmp (c : list line) : Prop := forall l, In l c -> is_jmp l = false.
Lemma nojmp_app a b : nojmp (a ++ b) <-> nojmp a /\ nojmp b.
Proof. unfold nojmp. setoid_rewrite in_app_iff. firstorder. Qed.
Lemma nojmp_ren o n c : nojmp c -> nojmp (map (ren o n) c).
Proof. intros H l. rewrite in_map_iff. intros (l0 & <- & Hl). specialize (H _ Hl). destruct l0; exact H. Qed.
Lemma InvertJump_jmp c1 c2 d1 d2 x : InvertJump c1 c2 = Some (d1, d2) -> is_jmp (LJ d1 d2 x) = false.
Proof.
  unfold InvertJump. cbn [is_jmp]. intros H.
  destruct (existsb _ _). { assert (d1 = "n"%char) as -> by congruence. reflexivity. }
  destruct (Ascii.eqb c1 "n"). { assert (d2 = space) as -> by congruence. now destruct (Ascii.eqb d1 "m"). }
  destruct (Ascii.eqb c1 "a"). { assert (d1 = "b"%char) as -> by congruence. reflexivity. }
  destruct (Ascii.eqb c1 "b"). { assert (d1 = "a"%char) as -> by congruence. reflexivity. }
  destruct (Ascii.eqb c1 "g"). { assert (d1 = "l"%char) as -> by congruence. reflexivity. }
  destruct (Ascii.eqb c1 "l"). { assert (d1 = "g"%char) as -> by congruence. reflexivity. }
  destruct (Ascii.eqb c1 "m") eqn:E; [discriminate|]. assert (d1 = c1) as -> by congruence. now rewrite E.
Qed.
Lemma noconst_ending e : forall b, noconst e = true -> ending b e <> EndEmpty.
Proof.
  induction e; intros b0; cbn [noconst ending]; try discriminate.
  - destruct (k_kind (opnd a)); discriminate.
  - apply IHe.
  - apply IHe.
  - rewrite andb_true_iff. intros [_ H]. destruct b0; [discriminate|now apply IHe2].
  - rewrite andb_true_iff. intros [_ H]. destruct b0; [now apply IHe2|]. destruct (ending false e2); discriminate.
Qed.
Lemma nojmp_lab x : nojmp [LLab x].
Proof. intros l [<-|[]]. reflexivity. Qed.
Record coded (b : bool) (e : cond) (L lo hi : Z) (c : list line) : Prop := {
  cd_occ : forall x, In x (occs c) -> x = L \/ lo < x <= hi;
  cd_lab : forall x, In x (labels c) -> lo < x <= hi;
  cd_nodup : NoDup (labels c);
  cd_le : lo <= hi;
  cd_jmp : noconst e = true -> nojmp c;
  cd_sem : forall m f, sized m ->
    exec m c (Run f) = let '(v, f') := eval m e f in if Bool.eqb v b then Seek L f' else Run f' }.

(** sem of the code in front of the last jump *)
Definition front (b : bool) (e : cond) (L lt : Z) (c0 : list line) (K : flags -> bool) : Prop :=
  forall m f, sized m ->
    let '(v, f') := eval m e f in
    (exec m c0 (Run f) = Run f' /\ K f' = Bool.eqb v b) \/
    (exec m c0 (Run f) = Seek L f' /\ Bool.eqb v b = true) \/
    (lt <> 0 /\ exec m c0 (Run f) = Seek lt f' /\ Bool.eqb v b = false).
Definition tlab (lt : Z) : list line := if lt =? 0 then [] else [LLab lt].
Definition tailed (b : bool) (e : cond) (L : Z) (base : nat) (c : list line) (lj : option nat) (lt : Z) : Prop :=
  match ending b e with
  | EndJump => exists c0 c1 c2 K, c = c0 ++ LJ c1 c2 L :: tlab lt /\ lj = Some (base + length c0)%nat /\ inv_ok c1 c2 K /\ front b e L lt c0 K
  | EndEmpty => lj = Some (base + length c)%nat /\ lt = 0
  | EndLabel => lj = None
  | EndBad => True
  end.

Lemma exec_tail m c1 c2 L lt K md : taken c1 c2 = Some K -> L <> lt ->
  exec m (LJ c1 c2 L :: tlab lt) md =
  match md with
  | Run f => if K f then Seek L f else Run f
  | Seek x f => if negb (lt =? 0) && (x =? lt) then Run f else Seek x f
  | Stuck => Stuck
  end.
Proof.
  intros HK HL. rewrite exec_cons. destruct md as [f|x f|]; cbn [stepl is_label].
  - rewrite HK. destruct (K f); unfold tlab; destruct (lt =? 0) eqn:E; cbn; auto.
    apply Z.eqb_neq in HL. now rewrite HL.
  - unfold tlab. destruct (lt =? 0) eqn:E; cbn; auto.
  - unfold tlab. destruct (lt =? 0); reflexivity.
Qed.
(** the semantics follows from that of the front part *)
Lemma front_sem b e L lt c0 c1 c2 K : front b e L lt c0 K -> taken c1 c2 = Some K -> L <> lt ->
  forall m f, sized m ->
    exec m (c0 ++ LJ c1 c2 L :: tlab lt) (Run f) = let '(v, f') := eval m e f in if Bool.eqb v b then Seek L f' else Run f'.
Proof.
  intros HF HK HL m f Hm. specialize (HF m f Hm). destruct (eval m e f) as [v f'].
  rewrite exec_app, (exec_tail _ _ _ _ _ K) by auto.
  destruct HF as [(E & EK)|[(E & Ev)|(Hl & E & Ev)]]; rewrite E.
  - now rewrite EK.
  - rewrite Ev. replace (L =? lt) with false by (symmetry; now apply Z.eqb_neq). now rewrite andb_false_r.
  - rewrite Ev. apply Z.eqb_neq in Hl. now rewrite Hl, Z.eqb_refl.
Qed.

(** * Chains of operands
    (of "&&" if the code jumps when the condition holds, of "||" otherwise) *)
Definition join (b : bool) (eo : option cond) (e : cond) : cond :=
  match eo with None => e | Some e1 => if b then CAnd e1 e else COr e1 e end.
Definition accum (b : bool) (eo : option cond) (T lo0 lo : Z) (acc : list line) : Prop :=
  match eo with
  | None => acc = [] /\ T = 0 /\ lo = lo0
  | Some e => lo0 < T <= lo /\ (forall x, In x (occs acc) -> lo0 < x <= lo) /\ NoDup (labels acc) /\ ~ In T (labels acc) /\ (noconst e = true -> nojmp acc) /\
      forall m f, sized m -> exec m acc (Run f) = let '(v, f') := eval m e f in if Bool.eqb v b then Run f' else Seek T f'
  end.
Lemma eval_join b e1 e2 m f : eval m (join b (Some e1) e2) f =
  let '(v, f1) := eval m e1 f in if Bool.eqb v b then eval m e2 f1 else (negb b, f1).
Proof. cbn [join]. destruct b; cbn [eval]; destruct (eval m e1 f) as [[|] f1]; reflexivity. Qed.

Lemma NoDup_both {A} (a b : list A) : NoDup a -> NoDup b -> (forall x, In x a -> ~ In x b) -> NoDup (a ++ b).
Proof.
  induction 1 as [|x a Hx Ha IH]; intros Hb H; cbn; [exact Hb|]. constructor.
  - rewrite in_app_iff. intros [H1|H1]; [auto|]. apply (H x); [now left|exact H1].
  - apply IH; auto. intros y Hy. apply H. now right.
Qed.
Lemma NoDup_parts {A} (a b : list A) : NoDup (a ++ b) -> NoDup a /\ NoDup b /\ forall x, In x a -> ~ In x b.
Proof.
  induction a as [|x a IH]; cbn; intros H; [repeat split; auto; constructor|]. apply NoDup_cons_iff in H as [H1 H2].
  destruct (IH H2) as (Ha & Hb & Hd). rewrite in_app_iff in H1. split; [constructor; tauto|]. split; [exact Hb|].
  intros y [<-|Hy]; auto.
Qed.

Lemma chain_end b e1 e2 T L lo0 lo hi acc c :
  accum b (Some e1) T lo0 lo acc -> coded b e2 L lo hi c -> L <= lo0 ->
  coded b (join b (Some e1) e2) L lo0 hi (acc ++ c ++ [LLab T]).
Proof.
  intros (HT & Ho & Hn & HTl & Hj & Hs) [Co Cl Cn Ce Cj Cs] HL. constructor.
  - intros x. rewrite !occs_app, !in_app_iff. cbn [occs flat_map app In]. intros [H|[H|[H|[]]]].
    + right. specialize (Ho _ H). lia.
    + destruct (Co _ H); [now left|right; lia].
    + subst. right; lia.
  - intros x. rewrite !labels_app, !in_app_iff. cbn [labels flat_map app In]. intros [H|[H|[H|[]]]].
    + specialize (Ho _ (labels_occs _ _ H)). lia.
    + specialize (Cl _ H). lia.
    + subst; lia.
  - rewrite !labels_app. cbn [labels flat_map app]. apply NoDup_both; [exact Hn| |].
    + apply NoDup_both; [exact Cn|constructor; [intros []|constructor]|]. intros x Hx [<-|[]]. specialize (Cl _ Hx). lia.
    + intros x Hx. rewrite in_app_iff. intros [H|[<-|[]]]; [|contradiction].
      specialize (Cl _ H). specialize (Ho _ (labels_occs _ _ Hx)). lia.
  - lia.
  - intros H. assert (noconst e1 = true /\ noconst e2 = true) as [H1 H2] by (destruct b; now apply andb_true_iff).
    rewrite !nojmp_app. auto using nojmp_lab.
  - intros m f Hm. rewrite !exec_app, Hs, eval_join by assumption. destruct (eval m e1 f) as [v f1].
    destruct (Bool.eqb v b).
    + rewrite Cs by assumption. destruct (eval m e2 f1) as [v2 f2]. destruct (Bool.eqb v2 b); cbn; auto.
      replace (L =? T) with false; [reflexivity|]. symmetry. apply Z.eqb_neq. lia.
    + rewrite exec_seek; [|intros H; specialize (Cl _ H); lia]. cbn. rewrite Z.eqb_refl.
      destruct b; reflexivity.
Qed.

(** turning an operand *)

(** turning an operand *)
Lemma turn_core b eo e T lo0 lo hi L acc c0 inv lt K N :
  (forall x, In x (occs acc) -> lo0 < x <= lo) -> NoDup (labels acc) -> ~ In T (labels acc) ->
  (forall m f, sized m -> exec m acc (Run f) =
     match eo with None => Run f | Some e1 => let '(v, f') := eval m e1 f in if Bool.eqb v b then Run f' else Seek T f' end) ->
  L <= lo0 -> lo0 <= lo <= hi -> (lo0 < T <= lo \/ T = hi + 1) -> T < N -> hi < N ->
  front b e L lt c0 K ->
  (forall x, In x (occs c0) -> x = L \/ lo < x <= hi) -> (forall x, In x (labels c0) -> lo < x <= hi) -> NoDup (labels c0) ->
  (lt = 0 \/ lo < lt <= hi /\ ~ In lt (labels c0)) ->
  (forall m f, exec m inv (Run f) = if K f then Run f else Seek T f) -> (forall x, In x (occs inv) -> x = T) -> labels inv = [] ->
  (noconst (join b eo e) = true -> nojmp acc) -> (noconst e = true -> nojmp c0 /\ nojmp inv) ->
  let d := if lt =? 0 then c0 ++ inv else map (ren lt T) (c0 ++ inv) in
  accum b (Some (join b eo e)) T lo0 N (acc ++ map (ren L N) (d ++ [LLab L])).
Proof.
  intros Ao An AT As HL Hlo HT HN1 HN2 HF Co Cl Cn Hlt Hi Hio Hil Aj Cj d.
  assert (HTL : T <> L) by lia.
  assert (HTc : ~ In T (occs c0)) by (intros H; destruct (Co _ H); lia).
  assert (Ld : labels d = labels c0).
  { unfold d. destruct (Z.eqb_spec lt 0) as [->|E]; [now rewrite labels_app, Hil, app_nil_r|].
    rewrite labels_ren, labels_app, Hil, app_nil_r. destruct Hlt as [->|[_ Hlt]]; [congruence|].
    clear - Hlt. induction (labels c0) as [|x l IH]; [reflexivity|]. cbn in *. rewrite IH by tauto. f_equal.
    unfold ren1. destruct (Z.eqb_spec x lt); auto. subst; tauto. }
  assert (Od : forall x, In x (occs d) -> x = L \/ lo < x <= hi \/ x = T).
  { intros x. unfold d. destruct (Z.eqb_spec lt 0) as [->|E].
    - rewrite occs_app, in_app_iff. intros [H|H]; [destruct (Co _ H); auto|rewrite (Hio _ H); auto].
    - rewrite occs_ren. intros H. apply in_ren in H as [[-> _]|[H _]]; [auto|].
      rewrite occs_app, in_app_iff in H. destruct H as [H|H]; [destruct (Co _ H); auto|rewrite (Hio _ H); auto]. }
  assert (Sd : forall m f, sized m -> exec m (d ++ [LLab L]) (Run f) = let '(v, f') := eval m e f in if Bool.eqb v b then Run f' else Seek T f').
  { intros m f Hm. specialize (HF m f Hm). destruct (eval m e f) as [v f'].
    assert (Hseek : forall x g, exec m inv (Seek x g) = Seek x g) by (intros; apply exec_seek; rewrite Hil; intros []).
    assert (E : exec m d (Run f) = if Bool.eqb v b then match exec m c0 (Run f) with Run f => Run f | _ => Seek L f' end else Seek T f').
    { unfold d. destruct (Z.eqb_spec lt 0) as [->|E].
      - rewrite exec_app. destruct HF as [(E & EK)|[(E & Ev)|(Hl & _)]]; [| |congruence]; rewrite E.
        + rewrite Hi, EK. destruct (Bool.eqb v b); reflexivity.
        + rewrite Hseek, Ev. reflexivity.
      - rewrite map_app, exec_app.
        assert (R : exec m (map (ren lt T) c0) (Run f) = renm lt T (exec m c0 (Run f))).
        { rewrite <- (exec_ren m lt T c0 (Run f)); auto. }
        assert (Ri : map (ren lt T) inv = inv).
        { apply ren_id. intros H. apply Hio in H. lia. }
        rewrite R, Ri. destruct HF as [(E1 & EK)|[(E1 & Ev)|(Hl & E1 & Ev)]]; rewrite E1; cbn [renm].
        + rewrite Hi, EK. destruct (Bool.eqb v b); reflexivity.
        + rewrite Hseek, Ev. unfold ren1. destruct (Z.eqb_spec L lt); [lia|reflexivity].
        + rewrite Hseek, Ev. unfold ren1. now rewrite Z.eqb_refl. }
    rewrite exec_app, E. destruct (Bool.eqb v b) eqn:Ev.
    - assert (C0 : exec m c0 (Run f) = Run f' \/ exec m c0 (Run f) = Seek L f')
        by (destruct HF as [(E1 & _)|[(E1 & _)|(_ & _ & E1)]]; [now left|now right|discriminate]).
      destruct C0 as [-> | ->]; cbn; [reflexivity|]. now rewrite Z.eqb_refl.
    - cbn. replace (T =? L) with false; [reflexivity|]. symmetry. now apply Z.eqb_neq. }
  assert (HNd : ~ In N (occs (d ++ [LLab L]))).
  { rewrite occs_app, in_app_iff. cbn [occs flat_map app In]. intros [H|[H|[]]]; [|lia].
    destruct (Od _ H) as [H1|[H1|H1]]; lia. }
  assert (Lc : labels (map (ren L N) (d ++ [LLab L])) = labels c0 ++ [N]).
  { rewrite labels_ren, labels_app, Ld, map_app. cbn [labels flat_map app map]. unfold ren1 at 2. rewrite Z.eqb_refl. f_equal.
    assert (HLc : ~ In L (labels c0)) by (intros H; specialize (Cl _ H); lia). clear - HLc.
    induction (labels c0) as [|x l IH]; [reflexivity|]. cbn in *. rewrite IH by tauto. f_equal.
    unfold ren1. destruct (Z.eqb_spec x L); auto. subst; tauto. }
  split; [lia|]. split; [|split; [|split; [|split]]].
  - intros x. rewrite occs_app, in_app_iff, occs_ren. intros [H|H]; [specialize (Ao _ H); lia|].
    apply in_ren in H as [[-> _]|[H Hx]]; [lia|].
    rewrite occs_app, in_app_iff in H. destruct H as [H|[H|[]]]; [|congruence].
    destruct (Od _ H) as [H1|[H1|H1]]; lia.
  - rewrite labels_app, Lc. apply NoDup_both; [exact An| |].
    + apply NoDup_both; [exact Cn|constructor; [intros []|constructor]|]. intros x Hx [<-|[]]. specialize (Cl _ Hx). lia.
    + intros x Hx. rewrite in_app_iff. specialize (Ao _ (labels_occs _ _ Hx)). intros [H|[<-|[]]]; [specialize (Cl _ H); lia|lia].
  - rewrite labels_app, Lc, !in_app_iff. intros [H|[H|[H|[]]]]; [auto|specialize (Cl _ H); lia|lia].
  - intros H. rewrite nojmp_app. split; [now apply Aj|]. apply nojmp_ren. rewrite nojmp_app. split; [|apply nojmp_lab].
    assert (H1 : noconst e = true) by (destruct eo; [|exact H]; destruct b; now apply andb_true_iff in H). specialize (Cj H1).
    rewrite <- nojmp_app in Cj. unfold d. destruct (lt =? 0); [exact Cj|now apply nojmp_ren].
  - intros m f Hm. rewrite exec_app, As by assumption.
    assert (Sc : forall g, exec m (map (ren L N) (d ++ [LLab L])) (Run g) = let '(v, f') := eval m e g in if Bool.eqb v b then Run f' else Seek T f').
    { intros g. change (Run g) with (renm L N (Run g)) at 1. rewrite exec_ren; [|exact HNd|intros []].
      rewrite Sd by assumption. destruct (eval m e g) as [v f']. destruct (Bool.eqb v b); [reflexivity|].
      cbn [renm]. unfold ren1. replace (T =? L) with false; [reflexivity|]. symmetry. now apply Z.eqb_neq. }
    destruct eo as [e1|]; [|exact (Sc f)].
    rewrite eval_join. destruct (eval m e1 f) as [v f1]. destruct (Bool.eqb v b).
    + apply Sc.
    + rewrite exec_seek; [destruct b; reflexivity|]. rewrite Lc, in_app_iff. intros [H|[H|[]]]; [specialize (Cl _ H); lia|lia].
Qed.

Lemma ReplaceLabel_app a x o n : ReplaceLabel (length a) o n (a ++ x) = a ++ map (ren o n) x.
Proof.
  unfold ReplaceLabel. rewrite firstn_app, skipn_app, firstn_all, skipn_all, Nat.sub_diag. cbn [firstn skipn app]. now rewrite app_nil_r.
Qed.
Lemma nth_error_mid {A} (a b : list A) x p : p = length a -> nth_error (a ++ x :: b) p = Some x.
Proof. intros ->. rewrite nth_error_app2 by lia. now rewrite Nat.sub_diag. Qed.
Lemma firstn_mid {A} (a b : list A) p : p = length a -> firstn p (a ++ b) = a.
Proof. intros ->. now rewrite firstn_app, firstn_all, Nat.sub_diag, app_nil_r. Qed.

Lemma front_empty b e L c lo hi : coded b e L lo hi c -> front b e L 0 c (fun _ => false).
Proof.
  intros C m f Hm. rewrite (cd_sem _ _ _ _ _ _ C m f Hm). destruct (eval m e f) as [v f']. destruct (Bool.eqb v b); auto.
Qed.

(** what is left of the code of a turned operand *)
Lemma turn_parts b e L lo hi c base lj lt T : coded b e L lo hi c -> tailed b e L base c lj lt -> can_turn (ending b e) = true -> L <= lo -> 0 <= lo ->
  exists c0 inv K, lj = Some (base + length c0)%nat /\
    (forall pre, length pre = base -> invert_to (base + length c0) T (pre ++ c) = Ok (pre ++ c0 ++ inv)) /\
    front b e L lt c0 K /\
    (forall x, In x (occs c0) -> x = L \/ lo < x <= hi) /\ (forall x, In x (labels c0) -> lo < x <= hi) /\ NoDup (labels c0) /\
    (lt = 0 \/ lo < lt <= hi /\ ~ In lt (labels c0)) /\
    (forall m f, exec m inv (Run f) = if K f then Run f else Seek T f) /\ (forall x, In x (occs inv) -> x = T) /\ labels inv = [] /\
    (noconst e = true -> nojmp c0 /\ nojmp inv).
Proof.
  intros C HT HC HL H0. unfold tailed in HT. destruct (ending b e) eqn:Eend; try discriminate.
  - assert (Hne := noconst_ending e b).
    destruct HT as (c0 & c1 & c2 & K & -> & -> & [HK1 HK2] & HF).
    exists c0, (match InvertJump c1 c2 with Some (d1, d2) => [LJ d1 d2 T] | None => [] end), K.
    destruct C as [Co Cl Cn Ce Cj Cs].
    split; [reflexivity|]. split; [|split; [exact HF|]].
    { intros pre <-. unfold invert_to. rewrite app_assoc, nth_error_mid by (now rewrite app_length).
      rewrite firstn_mid by (now rewrite app_length). now rewrite app_assoc. }
    split; [|split; [|split; [|split; [|split; [|split; [|split]]]]]].
    + intros x Hx. apply Co. rewrite occs_app, in_app_iff. now left.
    + intros x Hx. apply Cl. rewrite labels_app, in_app_iff. now left.
    + rewrite labels_app in Cn. now apply NoDup_parts in Cn as (? & ? & ?).
    + unfold tlab in *. destruct (Z.eqb_spec lt 0); [now left|right]. split.
      * apply Cl. rewrite labels_app, in_app_iff. right. now left.
      * intros Hx. rewrite labels_app in Cn. apply NoDup_parts in Cn as (_ & _ & Hd). apply (Hd _ Hx). now left.
    + intros m f. destruct (InvertJump c1 c2) as [[d1 d2]|].
      * destruct HK2 as (K' & E1 & E2). cbn. rewrite E1, E2. now destruct (K f).
      * cbn. now rewrite HK2.
    + intros x. destruct (InvertJump c1 c2) as [[d1 d2]|]; [intros [<-|[]]; reflexivity|intros []].
    + now destruct (InvertJump c1 c2) as [[d1 d2]|].
    + intros H. specialize (Cj H). apply nojmp_app in Cj as [Cj _]. split; [exact Cj|].
      destruct (InvertJump c1 c2) as [[d1 d2]|] eqn:EI; [|intros l []]. intros l [<-|[]]. exact (InvertJump_jmp _ _ _ _ _ EI).
  - assert (Hne := noconst_ending e b). destruct HT as [-> ->]. exists c, [LJ "m" "p" T], (fun _ => false). pose proof (front_empty _ _ _ _ _ _ C) as HF.
    destruct C as [Co Cl Cn Ce Cj Cs].
    split; [reflexivity|]. split; [|split; [exact HF|]].
    { intros pre <-. unfold invert_to.
      replace (nth_error (pre ++ c) (length pre + length c)) with (@None line)
        by (symmetry; apply nth_error_None; rewrite app_length; lia).
      rewrite app_length, Nat.eqb_refl. now rewrite app_assoc. }
    split; [exact Co|]. split; [exact Cl|]. split; [exact Cn|]. split; [now left|]. split; [reflexivity|]. split; [|split; [reflexivity|]].
    { intros x [<-|[]]; reflexivity. }
    intros H. now destruct (Hne H).
Qed.

Lemma chain_turn rep b eo e T L lo0 lo pre acc c s from :
  accum b eo T lo0 lo acc -> coded b e L lo (lbl s) c -> tailed b e L (length (pre ++ acc)) c (lastjmp s) (lasttrue s) ->
  can_turn (ending b e) = true -> L <= lo0 -> 0 <= lo0 -> buf s = pre ++ acc ++ c ->
  (from = length pre \/ from = length (pre ++ acc)) ->
  exists T' s' acc', turn rep L (length pre) from T s = Ok (T', s') /\ lastjmp s' = None /\
    buf s' = pre ++ acc' /\ accum b (Some (join b eo e)) T' lo0 (lbl s') acc' /\ lbl s <= lbl s'.
Proof.
  intros HA HC HT Hc HL H0 Hb Hf.
  assert (Hlo : lo0 <= lo) by (destruct eo; [destruct HA as (? & _); lia|destruct HA as (_ & _ & ->); lia]).
  pose proof (cd_le _ _ _ _ _ _ HC) as Hhi.
  set (T' := if T =? 0 then lbl s + 1 else T). set (N := if T =? 0 then lbl s + 2 else lbl s + 1).
  destruct (turn_parts _ _ _ _ _ _ _ _ _ T' HC HT Hc ltac:(lia) ltac:(lia)) as (c0 & inv & K & Elj & Einv & HF & Co & Cl & Cn & Hlt & Hi & Hio & Hil & Hj).
  assert (Ao : forall x, In x (occs acc) -> lo0 < x <= lo) by (destruct eo; [now destruct HA as (_ & ? & _)|destruct HA as (-> & _); intros x []]).
  assert (HTT : lo0 < T' <= lo \/ T' = lbl s + 1).
  { unfold T'. destruct eo; [destruct HA as (HT1 & _); left; destruct (Z.eqb_spec T 0); lia|]. destruct HA as (_ & -> & _). now right. }
  assert (HN : T' < N /\ lbl s < N).
  { assert (HT0 : T = 0 \/ lo0 < T <= lo) by (destruct eo; [destruct HA as (? & _); now right|destruct HA as (_ & ? & _); now left]).
    unfold N, T'. destruct (Z.eqb_spec T 0); lia. }
  assert (Acc := turn_core b eo e T' lo0 lo (lbl s) L acc c0 inv (lasttrue s) K N Ao).
  assert (An : NoDup (labels acc)) by (destruct eo; [now destruct HA as (_ & _ & ? & _)|destruct HA as (-> & _); constructor]).
  assert (AT : ~ In T' (labels acc)).
  { destruct eo; [|destruct HA as (-> & _); intros []]. destruct HA as (HT1 & _ & _ & ? & _). unfold T'. destruct (Z.eqb_spec T 0); [lia|assumption]. }
  assert (As : forall m f, sized m -> exec m acc (Run f) =
     match eo with None => Run f | Some e1 => let '(v, f') := eval m e1 f in if Bool.eqb v b then Run f' else Seek T' f' end).
  { intros m f Hm. destruct eo; [|destruct HA as (-> & _); reflexivity]. destruct HA as (HT1 & _ & _ & _ & _ & Hs). rewrite Hs by assumption.
    unfold T'. destruct (Z.eqb_spec T 0); [lia|reflexivity]. }
  assert (Aj : noconst (join b eo e) = true -> nojmp acc).
  { intros H. destruct eo as [e1|]; [|destruct HA as (-> & _); intros l []]. destruct HA as (_ & _ & _ & _ & HA & _). apply HA.
    destruct b; now apply andb_true_iff in H. }
  specialize (Acc An AT As HL ltac:(lia) HTT ltac:(lia) ltac:(lia) HF Co Cl Cn Hlt Hi Hio Hil Aj Hj). cbv zeta in Acc.
  set (d := if lasttrue s =? 0 then c0 ++ inv else map (ren (lasttrue s) T') (c0 ++ inv)) in *.
  unfold turn. rewrite Elj.
  assert (EL : (let '(tl, s0) := if T =? 0 then GetHllLabel s else (T, s) in (tl, buf s0, lasttrue s0, lbl s0))
               = (T', buf s, lasttrue s, N - 1)).
  { unfold T', N, GetHllLabel. destruct (T =? 0); cbn [buf lasttrue lbl];
    [replace (lbl s + 2 - 1) with (lbl s + 1) by lia|replace (lbl s + 1 - 1) with (lbl s) by lia]; reflexivity. }
  destruct (if T =? 0 then GetHllLabel s else (T, s)) as [tl s0] eqn:E0. cbn in EL.
  assert (E1 : tl = T') by congruence. assert (E2 : buf s0 = buf s) by congruence.
  assert (E3 : lasttrue s0 = lasttrue s) by congruence. assert (E4 : lbl s0 = N - 1) by congruence.
  rewrite E1, E2, Hb, app_assoc, Einv by reflexivity. cbn [bindr GetHllLabel]. rewrite E3, E4. replace (N - 1 + 1) with N by lia.
  set (b1 := if negb (lasttrue s =? 0) then _ else _).
  assert (Eb1 : b1 = pre ++ acc ++ d).
  { unfold b1, d. destruct (lasttrue s =? 0) eqn:Elt; cbn [negb]; [now rewrite <- (app_assoc pre acc)|].
    destruct Hf as [->| ->].
    - rewrite <- (app_assoc pre acc), ReplaceLabel_app, (map_app _ acc). f_equal. f_equal. apply ren_id. intros Hx. specialize (Ao _ Hx).
      apply Z.eqb_neq in Elt. destruct Hlt as [|[? _]]; [contradiction|lia].
    - rewrite ReplaceLabel_app. now rewrite <- (app_assoc pre acc). }
  assert (Eacc : map (ren L N) acc = acc) by (apply ren_id; intros Hx; specialize (Ao _ Hx); lia).
  eexists _, _, (acc ++ map (ren L N) (d ++ [LLab L])). split; [reflexivity|]. cbn [lastjmp with_jmp buf with_buf lbl]. split; [reflexivity|].
  split; [|split; [exact Acc|lia]].
  rewrite Eb1. destruct rep.
  - rewrite ReplaceLabel_app, !map_app, Eacc, <- !app_assoc. cbn [map ren]. unfold ren1. now rewrite Z.eqb_refl.
  - rewrite <- !app_assoc, ReplaceLabel_app, !map_app, Eacc. reflexivity.
Qed.

(** the end of a chain of "||" *)
Lemma or_end b eo e T L lo0 lo pre acc c s e1 :
  eo = Some e1 -> accum b eo T lo0 lo acc -> coded b e L lo (lbl s) c -> tailed b e L (length (pre ++ acc)) c (lastjmp s) (lasttrue s) ->
  ending b e <> EndBad -> L <= lo0 -> 0 <= lo0 -> buf s = pre ++ acc ++ c ->
  exists s' c', bindr (match lastjmp s with
                 | Some p => if lasttrue s =? 0 then Ok s
                             else let b := ReplaceLabel (length (pre ++ acc)) (lasttrue s) T (buf s) in
                                  if (p <? length b)%nat then Ok (with_buf s (firstn (S p) b)) else UB
                 | None => Ok s
                 end) (fun s => Ok (with_true (append s [LLab T]) T)) = Ok s' /\
    buf s' = pre ++ c' /\ lbl s' = lbl s /\ coded b (join b eo e) L lo0 (lbl s) c' /\
    match ending b e with
    | EndJump => exists c0 c1 c2 K, c' = c0 ++ LJ c1 c2 L :: tlab (lasttrue s') /\ lastjmp s' = Some (length pre + length c0)%nat /\
                    inv_ok c1 c2 K /\ front b (join b eo e) L (lasttrue s') c0 K
    | EndLabel => lastjmp s' = None
    | _ => True
    end.
Proof.
  intros -> HA HC HT HB HL H0 Hb. pose proof (chain_end b e1 e T L lo0 lo (lbl s) acc c HA HC HL) as CE.
  unfold tailed in HT. destruct (ending b e).
  - destruct HT as (c0 & c1 & c2 & K & -> & Elj & [HK1 HK2] & HF). rewrite Elj.
    pose proof HA as (HTr & Ao & An & AT & Aj & As).
    destruct HC as [Co Cl Cn Ce Cj Cs].
    set (c0' := if lasttrue s =? 0 then c0 else map (ren (lasttrue s) T) c0).
    assert (Hlt : lasttrue s = 0 \/ lo < lasttrue s <= lbl s /\ ~ In (lasttrue s) (labels c0)).
    { unfold tlab in *. destruct (Z.eqb_spec (lasttrue s) 0); [now left|right]. split.
      - apply Cl. rewrite labels_app, in_app_iff. right. now left.
      - intros Hx. rewrite labels_app in Cn. apply NoDup_parts in Cn as (_ & _ & Hd). apply (Hd _ Hx). now left. }
    eexists _, (acc ++ c0' ++ LJ c1 c2 L :: [LLab T]).
    assert (ES : (if lasttrue s =? 0 then Ok s
              else let b0 := ReplaceLabel (length (pre ++ acc)) (lasttrue s) T (buf s) in
                   if (length (pre ++ acc) + length c0 <? length b0)%nat then Ok (with_buf s (firstn (S (length (pre ++ acc) + length c0)) b0)) else UB)
           = Ok (with_buf s (pre ++ acc ++ c0' ++ [LJ c1 c2 L]))).
    { unfold c0'. destruct (lasttrue s =? 0) eqn:Elt.
      - unfold tlab in Hb. rewrite Elt in Hb. f_equal. destruct s; cbn in *. now rewrite <- Hb.
      - cbv zeta. rewrite Hb, (app_assoc pre), ReplaceLabel_app, map_app. cbn [map ren].
        replace (_ <? _)%nat with true.
        2:{ symmetry. apply Nat.ltb_lt. rewrite !app_length, !map_length. cbn [length]. lia. }
        f_equal. f_equal. unfold ren1. replace (L =? lasttrue s) with false.
        2:{ symmetry. apply Z.eqb_neq. apply Z.eqb_neq in Elt. destruct Hlt as [|[? _]]; lia. }
        rewrite (app_assoc (pre ++ acc)). rewrite firstn_app.
        rewrite firstn_all2 by (rewrite !app_length, map_length; lia).
        replace (_ - _)%nat with 1%nat by (rewrite (app_length (pre ++ acc) (map _ _)), map_length; lia).
        cbn [firstn]. now rewrite <- !app_assoc. }
    rewrite ES. cbn [bindr]. split; [reflexivity|]. cbn [with_true append with_buf buf lbl lasttrue lastjmp].
    assert (HTL : T <> L) by lia.
    assert (ET : tlab T = [LLab T]) by (unfold tlab; destruct (Z.eqb_spec T 0); [lia|reflexivity]).
    assert (HTc : ~ In T (occs c0)).
    { intros H. assert (HH : In T (occs (c0 ++ LJ c1 c2 L :: tlab (lasttrue s)))) by (rewrite occs_app, in_app_iff; now left). destruct (Co _ HH); lia. }
    assert (Lc0 : labels c0' = labels c0).
    { unfold c0'. destruct (lasttrue s =? 0) eqn:Elt; [reflexivity|]. rewrite labels_ren. apply Z.eqb_neq in Elt. destruct Hlt as [?|[_ Hn]]; [contradiction|].
      clear - Hn. induction (labels c0) as [|x l IH]; [reflexivity|]. cbn in *. rewrite IH by tauto. f_equal.
      unfold ren1. destruct (Z.eqb_spec x (lasttrue s)); auto. subst; tauto. }
    assert (HF' : front b (join b (Some e1) e) L T (acc ++ c0') K).
    { intros m f Hm. rewrite eval_join. specialize (As m f Hm). destruct (eval m e1 f) as [v f1]. rewrite exec_app, As.
      destruct (Bool.eqb v b).
      - specialize (HF m f1 Hm). destruct (eval m e f1) as [v2 f2].
        assert (R : exec m c0' (Run f1) = if lasttrue s =? 0 then exec m c0 (Run f1) else renm (lasttrue s) T (exec m c0 (Run f1))).
        { unfold c0'. destruct (lasttrue s =? 0); [reflexivity|]. rewrite <- (exec_ren m (lasttrue s) T c0 (Run f1)); auto. }
        rewrite R. destruct HF as [(E & EK)|[(E & Ev)|(Hl & E & Ev)]]; rewrite E.
        + left. split; [now destruct (lasttrue s =? 0)|exact EK].
        + right. left. split; [|exact Ev]. destruct (lasttrue s =? 0) eqn:Elt; [reflexivity|]. cbn [renm]. unfold ren1.
          replace (L =? lasttrue s) with false; [reflexivity|]. symmetry. apply Z.eqb_neq. apply Z.eqb_neq in Elt. destruct Hlt as [|[? _]]; lia.
        + right. right. split; [lia|]. split; [|exact Ev]. apply Z.eqb_neq in Hl. rewrite Hl. cbn [renm]. unfold ren1. now rewrite Z.eqb_refl.
      - right. right. split; [lia|]. rewrite exec_seek.
        + split; [reflexivity|destruct b; reflexivity].
        + rewrite Lc0. intros H. assert (HH : In T (labels (c0 ++ LJ c1 c2 L :: tlab (lasttrue s)))) by (rewrite labels_app, in_app_iff; now left).
          specialize (Cl _ HH). lia. }
    split; [now rewrite <- !app_assoc|]. split; [reflexivity|]. split.
    + constructor.
      * intros x. rewrite !occs_app, !in_app_iff. cbn [occs flat_map app In]. intros [H|[H|[H|[H|[]]]]].
        -- right. specialize (Ao _ H). lia.
        -- assert (HH : x = T \/ In x (occs c0)).
           { unfold c0' in H. destruct (lasttrue s =? 0); [now right|]. rewrite occs_ren in H. apply in_ren in H as [[-> _]|[H _]]; auto. }
           destruct HH as [->|HH]; [right; lia|].
           destruct (Co x); [rewrite occs_app, in_app_iff; now left|now left|right; lia].
        -- now left.
        -- subst. right. lia.
      * intros x. rewrite !labels_app, !in_app_iff, Lc0. cbn [labels flat_map app In]. intros [H|[H|[H|[]]]].
        -- specialize (Ao _ (labels_occs _ _ H)). lia.
        -- enough (lo < x <= lbl s) by lia. apply Cl. rewrite labels_app, in_app_iff. now left.
        -- lia.
      * rewrite !labels_app, Lc0. cbn [labels flat_map app].
        assert (Lr : forall x, In x (labels c0) -> lo < x <= lbl s) by (intros x Hx; apply Cl; rewrite labels_app, in_app_iff; now left).
        apply NoDup_both; [exact An|apply NoDup_both|].
        -- rewrite labels_app in Cn. now apply NoDup_parts in Cn as (? & ? & ?).
        -- constructor; [intros []|constructor].
        -- intros x Hx [<-|[]]. specialize (Lr _ Hx). lia.
        -- intros x Hx. specialize (Ao _ (labels_occs _ _ Hx)). rewrite in_app_iff. intros [H|[H|[]]]; [specialize (Lr _ H); lia|subst; contradiction].
      * lia.
      * intros H. assert (noconst e1 = true /\ noconst e = true) as [H1 H2] by (destruct b; now apply andb_true_iff).
        specialize (Cj H2). apply nojmp_app in Cj as [Cj1 Cj2]. rewrite !nojmp_app. split; [auto|]. split.
        { unfold c0'. destruct (lasttrue s =? 0); [exact Cj1|now apply nojmp_ren]. }
        intros l [<-|[<-|[]]]; [apply Cj2; now left|reflexivity].
      * intros m f Hm. rewrite app_assoc, <- ET. apply (front_sem _ _ _ _ _ _ _ K); auto.
    + exists (acc ++ c0'), c1, c2, K. rewrite ET, <- app_assoc. split; [reflexivity|]. split; [|split; [split; assumption|exact HF']].
      rewrite !app_length. unfold c0'. rewrite Elj, app_length. destruct (lasttrue s =? 0); rewrite ?map_length; f_equal; lia.
  - destruct HT as [Elj Elt]. rewrite Elj, Elt. cbn [Z.eqb]. cbn [bindr]. eexists _, (acc ++ c ++ [LLab T]). split; [reflexivity|].
    cbn [with_true append with_buf buf lbl]. rewrite Hb, <- !app_assoc. split; [reflexivity|]. split; [reflexivity|]. split; [exact CE|trivial].
  - rewrite HT. cbn [bindr]. eexists _, (acc ++ c ++ [LLab T]). split; [reflexivity|].
    cbn [with_true append with_buf buf lbl lastjmp]. rewrite Hb, <- !app_assoc. split; [reflexivity|]. split; [reflexivity|]. split; [exact CE|exact HT].
  - congruence.
Qed.

(** operands of "||" if the code jumps when the condition holds, of "&&" otherwise *)
Definition res_of (b : bool) (e : cond) (L : Z) (s s' : st) : Prop :=
  exists c, buf s' = buf s ++ c /\ coded b e L (lbl s) (lbl s') c /\ tailed b e L (length (buf s)) c (lastjmp s') (lasttrue s').
Definition joinp (b : bool) (e1 e2 : cond) : cond := if b then COr e1 e2 else CAnd e1 e2.
Lemma eval_joinp b e1 e2 m f : eval m (joinp b e1 e2) f =
  let '(v, f1) := eval m e1 f in if Bool.eqb v b then (b, f1) else eval m e2 f1.
Proof. destruct b; cbn [joinp eval]; destruct (eval m e1 f) as [[|] f1]; reflexivity. Qed.
Lemma chain_plain b e1 e2 L s s1 s2 : L <= lbl s ->
  res_of b e1 L s s1 -> res_of b e2 L s1 s2 -> res_of b (joinp b e1 e2) L s s2.
Proof.
  intros HL (ca & Ba & [Ao Al An Ae Aj As] & _) (cb & Bb & [Co Cl Cn Ce Cj Cs] & Tb).
  exists (ca ++ cb). split; [now rewrite Bb, Ba, app_assoc|]. split.
  - constructor.
    + intros x. rewrite occs_app, in_app_iff. intros [H|H]; [destruct (Ao _ H)|destruct (Co _ H)]; auto; right; lia.
    + intros x. rewrite labels_app, in_app_iff. intros [H|H]; [specialize (Al _ H)|specialize (Cl _ H)]; lia.
    + rewrite labels_app. apply NoDup_both; auto. intros x H1 H2. specialize (Al _ H1). specialize (Cl _ H2). lia.
    + lia.
    + intros H. assert (noconst e1 = true /\ noconst e2 = true) as [H1 H2] by (destruct b; now apply andb_true_iff).
      rewrite nojmp_app. auto.
    + intros m f Hm. rewrite exec_app, As, eval_joinp by assumption. destruct (eval m e1 f) as [v f1]. destruct (Bool.eqb v b).
      * rewrite exec_seek by (intros H; specialize (Cl _ H); lia). now rewrite Bool.eqb_reflx.
      * apply Cs; assumption.
  - unfold tailed in *. replace (ending b (joinp b e1 e2)) with (ending b e2) by (destruct b; reflexivity).
    destruct (ending b e2); auto.
    + destruct Tb as (c0 & c1 & c2 & K & -> & Ej & HK & HF). exists (ca ++ c0), c1, c2, K.
      split; [now rewrite <- app_assoc|]. split; [rewrite Ej, Ba, !app_length; f_equal; lia|]. split; [exact HK|].
      intros m f Hm. rewrite eval_joinp, exec_app, As by assumption. destruct (eval m e1 f) as [v f1]. destruct (Bool.eqb v b).
      * right. left. rewrite exec_seek; [split; [reflexivity|apply Bool.eqb_reflx]|].
        intros H. assert (HH : In L (labels (c0 ++ LJ c1 c2 L :: tlab (lasttrue s2)))) by (rewrite labels_app, in_app_iff; now left).
        specialize (Cl _ HH). lia.
      * apply HF; assumption.
    + destruct Tb as [Ej ->]. split; [|reflexivity]. rewrite Ej, Ba, !app_length. f_equal. lia.
Qed.
