(** Proofs about segment registers. *)
From Coq Require Import ZArith List Bool Lia.
From Verif Require Import Base Assume_Model Assume_Spec.
Import ListNotations.
Open Scope Z_scope.

Lemma same_ok : forall a b, same a b = true <-> a = b.
Proof.
  intros [a|a] [b|b]; cbn; rewrite ?Z.eqb_eq; split; intro H; try discriminate; try congruence.
Qed.

(** ** Tables *)

Record coherent (t : table) : Prop := {
  c_len : length t = 6%nat;
  c_flat : Forall (fun e => a_flat e = true <-> a_sym e = Some FLAT) t
}.

Lemma put_len : forall t k e, length (put t k e) = length t.
Proof. induction t as [|x t IH]; intros [|k] e; cbn; auto. Qed.

Lemma put_forall : forall (P : entry -> Prop) t k e, Forall P t -> P e -> Forall P (put t k e).
Proof. induction t as [|x t IH]; intros [|k] e F H; cbn; auto; apply Forall_cons_iff in F as [A B]; constructor; auto. Qed.

Lemma put_at : forall t k j e, (k < length t)%nat -> nth j (put t k e) none = if Nat.eqb j k then e else nth j t none.
Proof.
  induction t as [|x t IH]; intros [|k] [|j] e L; cbn in *; try lia; auto. apply IH. lia.
Qed.

Lemma at_flat : forall t r, coherent t -> a_flat (at_ t r) = true <-> a_sym (at_ t r) = Some FLAT.
Proof.
  intros t r [L F]. unfold at_. destruct (Nat.lt_ge_cases (Z.to_nat r) (length t)) as [H|H].
  - rewrite Forall_forall in F. apply F. apply nth_In. exact H.
  - rewrite nth_overflow by exact H. cbn. split; discriminate.
Qed.

Lemma coherent_put : forall t k e, coherent t -> (a_flat e = true <-> a_sym e = Some FLAT) -> coherent (put t k e).
Proof. intros t k e [L F] H. split; [rewrite put_len; exact L|apply put_forall; assumption]. Qed.

Lemma coherent_init : coherent init.
Proof. split; [reflexivity|]. unfold init. cbn. repeat constructor; cbn; discriminate. Qed.

Lemma coherent_assume : forall l t t', coherent t -> assume t l = Ok t' -> coherent t'.
Proof.
  induction l as [|i l IH]; intros t t' C H; cbn [assume] in H; [injection H as <-; exact C|].
  destruct i as [r|r|r x|r q|]; try (apply IH in H; [exact H|apply coherent_put; [exact C|cbn]]).
  - split; discriminate.
  - split; discriminate.
  - rewrite same_ok. split; congruence.
  - apply at_flat. exact C.
  - destruct l; [|discriminate]. injection H as <-. apply coherent_init.
Qed.

Lemma made_coherent : forall t, made t -> coherent t.
Proof. induction 1; [exact coherent_init|]. eapply coherent_assume; eassumption. Qed.

(** The last item decides. *)
Definition shows (t : table) (c : Z -> option target) : Prop := forall r, 0 <= r < 6 -> a_sym (at_ t r) = c r.

Lemma assume_said : forall l t t' c, coherent t ->
  Forall item_ok l ->
  shows t c -> assume t l = Ok t' -> shows t' (fold_left said l c).
Proof.
  induction l as [|i l IH]; intros t t' c C F S H; cbn [assume] in H; [injection H as <-; exact S|].
  apply Forall_cons_iff in F as [F0 F]. cbn [fold_left]. pose proof (c_len t C) as L.
  assert (P : forall r e x, 0 <= r < 6 -> a_sym e = x -> shows (put t (Z.to_nat r) e) (fun q => if q =? r then x else c q)).
  { intros r e x R E q Q. unfold at_. rewrite put_at by lia. destruct (Z.eqb_spec q r) as [->|N].
    - rewrite Nat.eqb_refl. exact E.
    - destruct (Nat.eqb_spec (Z.to_nat q) (Z.to_nat r)); [lia|]. apply (S q Q). }
  destruct i as [r|r|r x|r q|].
  - eapply IH; [|exact F| |exact H]; [apply coherent_put; [exact C|cbn; split; discriminate]|]. exact (P r {| a_sym := None; a_err := false; a_flat := false |} None F0 eq_refl).
  - eapply IH; [|exact F| |exact H]; [apply coherent_put; [exact C|cbn; split; discriminate]|]. exact (P r {| a_sym := None; a_err := true; a_flat := false |} None F0 eq_refl).
  - eapply IH; [|exact F| |exact H]; [apply coherent_put; [exact C|cbn; rewrite same_ok; split; congruence]|]. exact (P r {| a_sym := Some x; a_err := false; a_flat := same x FLAT |} (Some x) F0 eq_refl).
  - destruct F0 as [R Q]. eapply IH; [|exact F| |exact H]; [apply coherent_put; [exact C|cbn; apply at_flat; exact C]|].
    exact (P r {| a_sym := a_sym (at_ t q); a_err := false; a_flat := a_flat (at_ t q) |} (c q) R (S q Q)).
  - destruct l; [|discriminate]. injection H as <-. intros r R. cbn. unfold at_, init.
    assert (G : forall k, a_sym (nth k (repeat none 6) none) = None) by (intro k; rewrite nth_repeat; reflexivity). apply G.
Qed.

Definition bars (t : table) (c : Z -> bool) : Prop := forall r, 0 <= r < 6 -> a_err (at_ t r) = c r.

Lemma assume_barred : forall l t t' c, coherent t ->
  Forall item_ok l ->
  bars t c -> assume t l = Ok t' -> bars t' (fold_left barred l c).
Proof.
  induction l as [|i l IH]; intros t t' c C F S H; cbn [assume] in H; [injection H as <-; exact S|].
  apply Forall_cons_iff in F as [F0 F]. cbn [fold_left]. pose proof (c_len t C) as L.
  assert (P : forall r e x, 0 <= r < 6 -> a_err e = x -> bars (put t (Z.to_nat r) e) (fun q => if q =? r then x else c q)).
  { intros r e x R E q Q. unfold at_. rewrite put_at by lia. destruct (Z.eqb_spec q r) as [->|N].
    - rewrite Nat.eqb_refl. exact E.
    - destruct (Nat.eqb_spec (Z.to_nat q) (Z.to_nat r)); [lia|]. apply (S q Q). }
  destruct i as [r|r|r x|r q|].
  - eapply IH; [|exact F| |exact H]; [apply coherent_put; [exact C|cbn; split; discriminate]|]. exact (P r {| a_sym := None; a_err := false; a_flat := false |} false F0 eq_refl).
  - eapply IH; [|exact F| |exact H]; [apply coherent_put; [exact C|cbn; split; discriminate]|]. exact (P r {| a_sym := None; a_err := true; a_flat := false |} true F0 eq_refl).
  - eapply IH; [|exact F| |exact H]; [apply coherent_put; [exact C|cbn; rewrite same_ok; split; congruence]|]. exact (P r {| a_sym := Some x; a_err := false; a_flat := same x FLAT |} false F0 eq_refl).
  - destruct F0 as [R Q]. eapply IH; [|exact F| |exact H]; [apply coherent_put; [exact C|cbn; apply at_flat; exact C]|].
    exact (P r {| a_sym := a_sym (at_ t q); a_err := false; a_flat := a_flat (at_ t q) |} false R eq_refl).
  - destruct l; [|discriminate]. injection H as <-. intros r R. cbn. unfold at_, init.
    assert (G : forall k, a_err (nth k (repeat none 6) none) = false) by (intro k; rewrite nth_repeat; reflexivity). apply G.
Qed.

(** NOTHING for all registers must be the last item. *)
Lemma assume_accepts : forall l t, (exists t', assume t l = Ok t') <-> (forall a b, l = a ++ AllNothing :: b -> b = []).
Proof.
  induction l as [|i l IH]; intro t.
  - split; [|intros _; exists t; reflexivity]. intros _ [|x a] b E; discriminate.
  - assert (G : i <> AllNothing -> (forall a b, i :: l = a ++ AllNothing :: b -> b = []) <-> (forall a b, l = a ++ AllNothing :: b -> b = [])).
    { intro N. split; intros H a b E.
      - apply (H (i :: a) b). cbn. rewrite E. reflexivity.
      - destruct a as [|y a]; injection E as E1 E2; [contradiction|]. apply (H a b E2). }
    destruct i as [r|r|r x|r q|]; cbn [assume]; try (rewrite G by discriminate; apply IH). clear G.
    destruct l as [|y l].
    + split; [|intros _; eexists; reflexivity]. intros _ [|x a] b E; injection E as E; [symmetry; assumption|destruct a; discriminate].
    + split; [intros [t' H]; discriminate|]. intro H. specialize (H [] (y :: l) eq_refl). discriminate.
Qed.

(** ** The search *)

Lemma is_sym_ok : forall t r x, coherent t -> 0 <= r < 6 -> is_sym (at_ t r) x = true <-> holds t r x.
Proof.
  intros t r x C R. unfold is_sym, holds, at_. pose proof (c_len t C) as L.
  assert (N : nth_error t (Z.to_nat r) = Some (nth (Z.to_nat r) t none)) by (apply nth_error_nth'; lia).
  rewrite N. split.
  - destruct (a_sym _) as [y|] eqn:E; [|discriminate]. rewrite same_ok. intros ->. split; [exact R|]. eexists. split; [reflexivity|exact E].
  - intros (_ & e & E & H). injection E as <-. rewrite H. apply same_ok. reflexivity.
Qed.

Lemma is_grp_ok : forall t r g, coherent t -> 0 <= r < 6 -> is_grp (at_ t r) g = true <-> holds t r g.
Proof.
  intros t r g C R. unfold is_grp. rewrite orb_true_iff, andb_true_iff, same_ok, is_sym_ok by assumption. split; [|tauto].
  intros [[F ->]|H]; [|exact H]. apply at_flat in F; [|exact C]. apply is_sym_ok; [exact C|exact R|]. unfold is_sym. rewrite F. apply same_ok. reflexivity.
Qed.

Lemma first_ok : forall f, (first f = NOTHING /\ forall q, In q order -> f q = false) \/
  (0 <= first f < 6 /\ exists a b, order = a ++ first f :: b /\ f (first f) = true /\ forall q, In q a -> f q = false).
Proof.
  intro f. unfold first, searchtab, order, DS, SS, ES, FS, GS, CS, find.
  destruct (f 3) eqn:E3; [right; split; [lia|]; exists [], [2; 0; 4; 5; 1]; cbn; intuition|].
  destruct (f 2) eqn:E2; [right; split; [lia|]; exists [3], [0; 4; 5; 1]; cbn; intuition congruence|].
  destruct (f 0) eqn:E0; [right; split; [lia|]; exists [3; 2], [4; 5; 1]; cbn; intuition congruence|].
  destruct (f 4) eqn:E4; [right; split; [lia|]; exists [3; 2; 0], [5; 1]; cbn; intuition congruence|].
  destruct (f 5) eqn:E5; [right; split; [lia|]; exists [3; 2; 0; 4], [1]; cbn; intuition congruence|].
  destruct (f 1) eqn:E1; [right; split; [lia|]; exists [3; 2; 0; 4; 5], []; cbn; intuition congruence|].
  left. split; [reflexivity|]. intros q H. cbn in H. intuition congruence.
Qed.

Lemma order_all : forall q, 0 <= q < 6 -> In q order.
Proof. intros q Q. unfold order. cbn. lia. Qed.

Lemma order_range : forall q, In q order -> 0 <= q < 6.
Proof. intros q H. cbn in H. lia. Qed.

Lemma first_chosen : forall t x f, coherent t -> (forall r, 0 <= r < 6 -> f r = true <-> holds t r x) ->
  (first f = NOTHING /\ forall q, ~ holds t q x) \/ (first f <> NOTHING /\ chosen t x (first f)).
Proof.
  intros t x f C H. destruct (first_ok f) as [[N A]|(R & a & b & O & F & A)].
  - left. split; [exact N|]. intros q Q. assert (B : 0 <= q < 6) by (destruct Q; assumption). specialize (A q (order_all q B)). apply H in Q; [congruence|exact B].
  - right. split; [unfold NOTHING; lia|]. exists a, b. split; [exact O|]. split; [apply H; [exact R|exact F]|]. intros q Q.
    intro X. apply H in X; [rewrite (A q Q) in X; discriminate|]. apply order_range. rewrite O. apply in_app_iff. left. exact Q.
Qed.

Lemma holds_one : forall t r x y, holds t r x -> holds t r y -> x = y.
Proof. intros t r x y (_ & e & E & A) (_ & e' & E' & B). congruence. Qed.

Lemma chosen_holds : forall t x r, chosen t x r -> holds t r x.
Proof. intros t x r (a & b & _ & H & _). exact H. Qed.

(** Exactly [x]. *)
Lemma search_exact : forall grp t x d, coherent t -> 0 <= d < 6 -> let r := search_assume grp t (Some x) d false in
  (holds t d x /\ r = d) \/ (~ holds t d x /\ (r = NOTHING /\ (forall q, ~ holds t q x) \/ r <> NOTHING /\ chosen t x r)).
Proof.
  intros grp t x d C D r. unfold r, search_assume. assert (DN : (d =? NOTHING) = false) by (unfold NOTHING; lia). rewrite DN. cbn [negb andb].
  destruct (is_sym (at_ t d) x) eqn:E; [left; split; [apply is_sym_ok; assumption|reflexivity]|]. right.
  split; [intro H; apply is_sym_ok in H; [congruence|assumption|assumption]|].
  destruct (first_chosen t x (fun r => is_sym (at_ t r) x) C) as [[N A]|[N A]]; [intros; apply is_sym_ok; assumption| |].
  - rewrite N. cbn. left. split; [reflexivity|exact A].
  - destruct (first _ =? NOTHING) eqn:Q; [apply Z.eqb_eq in Q; contradiction|]. cbn. right. split; assumption.
Qed.

Lemma search_ok : forall grp t n d, coherent t -> 0 <= d < 6 -> let r := search_assume grp t (Some (TSeg n)) d true in
  (exists x, r <> NOTHING /\ picks grp t d n r x) \/ (r = NOTHING /\ forall q x, part grp n x -> ~ holds t q x).
Proof.
  intros grp t n d C D r. unfold r, search_assume. assert (DN : (d =? NOTHING) = false) by (unfold NOTHING; lia). rewrite DN. cbn [negb andb].
  assert (DN' : d <> NOTHING) by (unfold NOTHING; lia).
  destruct (is_sym (at_ t d) (TSeg n)) eqn:E.
  { left. exists (TSeg n). split; [exact DN'|]. left. split; [apply is_sym_ok; assumption|]. split; [reflexivity|]. left. reflexivity. }
  assert (NS : ~ holds t d (TSeg n)) by (intro H; apply is_sym_ok in H; [congruence|assumption|assumption]).
  destruct (first_chosen t (TSeg n) (fun r => is_sym (at_ t r) (TSeg n)) C) as [FS|FS]; [intros; apply is_sym_ok; assumption| |].
  - destruct FS as [N A]. cbn [GetGroup]. destruct (grp n) as [g|] eqn:G.
    + destruct (is_grp (at_ t d) (TGrp g)) eqn:E2.
      { left. exists (TGrp g). split; [exact DN'|]. left. split; [apply is_grp_ok; assumption|]. split; [reflexivity|]. right. exists g. auto. }
      rewrite N. cbn [negb].
      change (NOTHING =? NOTHING) with true. cbn [negb].
      destruct (first_chosen t (TGrp g) (fun r => is_grp (at_ t r) (TGrp g)) C) as [[N2 A2]|[N2 A2]]; [intros; apply is_grp_ok; assumption| |].
      * right. split; [exact N2|]. intros q x [->|(g' & G' & ->)]; [apply A|]. rewrite G in G'. injection G' as <-. apply A2.
      * left. exists (TGrp g). split; [exact N2|]. right. split.
        -- intros y [->|(g' & G' & ->)]; [exact NS|]. rewrite G in G'. injection G' as <-. intro H. apply is_grp_ok in H; [congruence|assumption|assumption].
        -- right. split; [exact A|]. exists g. auto.
    + rewrite N. change (NOTHING =? NOTHING) with true. cbn [negb]. right. split; [reflexivity|]. intros q x [->|(g' & G' & _)]; [apply A|congruence].
  - destruct FS as [N A]. destruct (first _ =? NOTHING) eqn:Q; [apply Z.eqb_eq in Q; contradiction|]. cbn [negb GetGroup].
    destruct (grp n) as [g|] eqn:G; [destruct (is_grp (at_ t d) (TGrp g)) eqn:E2|].
    + left. exists (TGrp g). split; [exact DN'|]. left. split; [apply is_grp_ok; assumption|]. split; [reflexivity|]. right. exists g. auto.
    + left. exists (TSeg n). split; [exact N|]. right. split; [|left; split; [reflexivity|exact A]].
      intros y [->|(g' & G' & ->)]; [exact NS|]. rewrite G in G'. injection G' as <-. intro H. apply is_grp_ok in H; [congruence|assumption|assumption].
    + left. exists (TSeg n). split; [exact N|]. right. split; [|left; split; [reflexivity|exact A]].
      intros y [->|(g' & G' & ->)]; [exact NS|congruence].
Qed.

Lemma picks_holds : forall grp t d n r x, picks grp t d n r x -> holds t r x.
Proof. intros grp t d n r x [(H & -> & _)|(_ & [(_ & H)|(_ & g & _ & _ & H)])]; [exact H|apply chosen_holds, H|apply chosen_holds, H]. Qed.

Lemma holds_sym : forall t r x, coherent t -> holds t r x -> a_sym (at_ t r) = Some x.
Proof. intros t r x C (R & e & E & A). unfold at_. rewrite (nth_error_nth t _ none E). exact A. Qed.

(** ** Operands *)

Definition def_of (r : reg) : Z :=
  match r with R16 n => if n =? 5 then SS else DS | R32 n => if (n =? 5) || (n =? 4) then SS else DS | RDS => DS end.

Lemma set_rm_ok : forall m, exists_ m -> exists r, set_rm m = Ok r /\ def_of r = usual m.
Proof.
  intros [|b|i|b i] H; cbn [exists_] in H.
  - eexists. split; reflexivity.
  - destruct b as [n|n|]; [| |contradiction]; eexists; (split; [reflexivity|]); cbn [def_of usual on_stack]; unfold usual; cbn [on_stack]; [reflexivity|rewrite orb_comm; reflexivity].
  - eexists. split; reflexivity.
  - destruct b as [b|b|]; destruct i as [i|i|]; try contradiction.
    + cbn in H. cbn [set_rm].
      destruct H as [[[<-|[<-|[]]] [<-|[<-|[]]]]|[[<-|[<-|[]]] [<-|[<-|[]]]]]; cbn; eexists; (split; [reflexivity|reflexivity]).
    + cbn [set_rm]. destruct (Z.eqb_spec i 4); [lia|]. eexists. split; [reflexivity|]. cbn [def_of]. unfold usual. cbn [on_stack]. rewrite orb_comm. reflexivity.
Qed.

Lemma usual_range : forall m, 0 <= usual m < 6.
Proof. intro m. unfold usual. destruct (on_stack m); lia. Qed.

Lemma used_prefix : forall m r, 0 <= r < 6 -> used m (prefix (if r =? usual m then NOTHING else r)) = Some r.
Proof.
  intros m r R. destruct (Z.eqb_spec r (usual m)) as [->|N]; [reflexivity|].
  assert (r = 0 \/ r = 1 \/ r = 2 \/ r = 3 \/ r = 4 \/ r = 5) as [->|[->|[->|[->|[->| ->]]]]] by lia; reflexivity.
Qed.

Lemma pre_nil : forall m r, 0 <= r < 6 -> (prefix (if r =? usual m then NOTHING else r) = [] <-> r = usual m).
Proof.
  intros m r R. destruct (Z.eqb_spec r (usual m)) as [->|N]; [split; reflexivity|]. unfold prefix.
  destruct (Z.eqb_spec r NOTHING) as [->|_]; [unfold NOTHING in R; lia|]. split; [discriminate|contradiction].
Qed.

(** The usual register has FLAT. *)
Lemma flat_holds : forall t d, coherent t -> 0 <= d < 6 -> a_flat (at_ t d) = true <-> holds t d FLAT.
Proof.
  intros t d C D. rewrite at_flat by exact C. split; [|apply holds_sym; exact C].
  intro H. split; [exact D|]. exists (at_ t d). split; [|exact H]. unfold at_. apply nth_error_nth'. rewrite (c_len t C). lia.
Qed.

Lemma operand_eq : forall grp t m s ov over, exists_ m -> ov = NOTHING -> (s <> None \/ over <> None) ->
  operand grp t false m s ov over =
  match check_assume grp t over s (usual m) None with
  | Ok p => Ok (prefix (if fst p =? usual m then NOTHING else fst p), snd p)
  | Err => Err
  | UB => UB
  end.
Proof.
  intros grp t m s ov over X -> H. unfold operand. change (negb (NOTHING =? NOTHING)) with false. cbn [andb]. destruct (set_rm_ok m X) as (r & -> & D). cbn [bindr]. unfold seg_override. cbv iota.
  fold (def_of r). rewrite D. change (negb (NOTHING =? NOTHING)) with false. cbv iota.
  destruct s as [s|]; destruct over as [o|]; try (destruct H; contradiction); destruct (check_assume _ _ _ _ _ _); reflexivity.
Qed.

Theorem symbol_ok : forall grp t m st n, made t -> exists_ m -> (st = Internal \/ st = External) -> flat_ok grp t m n ->
  let s := {| y_state := st; y_seg := Some n |} in
  (exists pre r x, operand grp t false m (Some s) NOTHING None = Ok (pre, Some x) /\ used m pre = Some r /\
     (pre = [] <-> r = usual m) /\ picks grp t (usual m) n r x) \/
  (operand grp t false m (Some s) NOTHING None = Err /\ forall q x, part grp n x -> ~ holds t q x).
Proof.
  intros grp t m st n M X ST FL s. pose proof (made_coherent t M) as C. pose proof (usual_range m) as U.
  rewrite operand_eq by (try exact X; try reflexivity; left; discriminate). unfold s.
  assert (CA : check_assume grp t None (Some {| y_state := st; y_seg := Some n |}) (usual m) None =
    let '(reg, a) := GetAssume grp t None (Some {| y_state := st; y_seg := Some n |}) (usual m) in
    if reg =? NOTHING then Err else Ok (reg, frame_of a None)) by (destruct ST as [-> | ->]; reflexivity).
  rewrite CA. clear CA. unfold GetAssume. assert (DN : (usual m =? NOTHING) = false) by (unfold NOTHING; lia). rewrite DN. cbn [negb andb].
  destruct (a_flat (at_ t (usual m))) eqn:FA.
  - rewrite DN. left. apply flat_holds in FA; [|exact C|exact U]. exists (prefix (if usual m =? usual m then NOTHING else usual m)), (usual m), FLAT.
    split; [reflexivity|]. split; [apply used_prefix; exact U|]. split; [apply pre_nil; exact U|]. left. split; [exact FA|]. split; [reflexivity|].
    right. exists 0. split; [apply FL; exact FA|reflexivity].
  - set (R := search_assume grp t (Some (TSeg n)) (usual m) true).
    match goal with |- context [let '(reg, a) := ?g in _] => replace g with (if negb (R =? NOTHING) then (R, a_sym (at_ t R)) else (NOTHING, None)) end.
    2:{ destruct ST as [-> | ->]; cbn [y_state y_seg seg_of]; fold R; destruct (R =? NOTHING) eqn:Q; rewrite ?Q; cbn [negb]; rewrite ?Q; reflexivity. }
    destruct (search_ok grp t n (usual m) C U) as [(x & N & P)|(N & A)]; fold R in N.
    + fold R in P. destruct (R =? NOTHING) eqn:Q; [apply Z.eqb_eq in Q; contradiction|]. cbn [negb]. rewrite Q.
      pose proof (picks_holds _ _ _ _ _ _ P) as H. assert (RR : 0 <= R < 6) by (destruct H; assumption).
      left. eexists. eexists. exists x. split; [|split; [apply used_prefix; exact RR|split; [apply pre_nil; exact RR|exact P]]].
      cbn [fst snd]. rewrite (holds_sym t _ x C H). reflexivity.
    + rewrite N. right. split; [reflexivity|exact A].
Qed.

Theorem override_ok : forall grp t m s x, made t -> exists_ m -> ~ holds t (usual m) FLAT ->
  match s with Some s => (y_state s = Internal \/ y_state s = External) /\ y_seg s <> None | None => True end ->
  (exists pre r, operand grp t false m s NOTHING (Some x) = Ok (pre, Some x) /\ used m pre = Some r /\ (pre = [] <-> r = usual m) /\ holds t r x) \/
  (operand grp t false m s NOTHING (Some x) = Err /\ forall q, ~ holds t q x).
Proof.
  intros grp t m s x M X NF HS. pose proof (made_coherent t M) as C. pose proof (usual_range m) as U.
  rewrite operand_eq by (try exact X; try reflexivity; right; discriminate).
  assert (FA : a_flat (at_ t (usual m)) = false).
  { destruct (a_flat (at_ t (usual m))) eqn:FA; [|reflexivity]. apply flat_holds in FA; [contradiction|exact C|exact U]. }
  assert (CA : check_assume grp t (Some x) s (usual m) None =
    let reg := search_assume grp t (Some x) (usual m) false in if reg =? NOTHING then Err else Ok (reg, a_sym (at_ t reg))).
  { unfold check_assume, GetAssume. rewrite FA. rewrite andb_false_r. cbv iota zeta.
    destruct s as [[st sg]|].
    - cbn in HS. destruct HS as [HS SG]. destruct sg as [n|]; [|contradiction].
      destruct (search_assume grp t (Some x) (usual m) false =? NOTHING) eqn:Q; destruct HS as [-> | ->]; cbn [y_seg];
        repeat (rewrite ?Q; progress cbn [negb]); rewrite ?Q; try reflexivity; destruct (a_sym _); reflexivity.
    - destruct (search_assume grp t (Some x) (usual m) false =? NOTHING) eqn:Q; repeat (rewrite ?Q; progress cbn [negb]); rewrite ?Q; try reflexivity; destruct (a_sym _); reflexivity. }
  rewrite CA. cbv zeta.
  assert (OK : forall r, search_assume grp t (Some x) (usual m) false = r -> holds t r x ->
    exists pre r', match (if r =? NOTHING then Err else Ok (r, a_sym (at_ t r))) with
      | Ok p => Ok (prefix (if fst p =? usual m then NOTHING else fst p), snd p) | Err => Err | UB => UB end = Ok (pre, Some x) /\
      used m pre = Some r' /\ (pre = [] <-> r' = usual m) /\ holds t r' x).
  { intros r _ H. assert (R : 0 <= r < 6) by (destruct H; assumption). assert (RN : (r =? NOTHING) = false) by (unfold NOTHING; lia). rewrite RN.
    rewrite (holds_sym t r x C H). eexists. exists r. split; [reflexivity|]. split; [apply used_prefix; exact R|]. split; [apply pre_nil; exact R|exact H]. }
  destruct (search_exact grp t x (usual m) C U) as [[H E]|[H [[E A]|[E A]]]].
  - left. rewrite E. apply OK; [exact E|exact H].
  - right. rewrite E. split; [reflexivity|exact A].
  - left. apply OK; [reflexivity|]. apply chosen_holds. exact A.
Qed.

(** A register given in the program is used. *)
Theorem explicit_ok : forall grp t m s ov over, exists_ m -> 0 <= ov < 6 -> a_err (at_ t ov) = false ->
  exists pre f, operand grp t false m s ov over = Ok (pre, f) /\ used m pre = Some ov /\
    (forall x, s <> None -> made t -> holds t ov x -> f = Some x) /\
    (forall st n, s = Some {| y_state := st; y_seg := Some n |} -> made t -> st = Internal \/ st = External -> (forall x, ~ holds t ov x) ->
       f = Some (match grp n with Some g => TGrp g | None => TSeg n end)).
Proof.
  intros grp t m s ov over X R NE. unfold operand. rewrite NE, andb_false_r. destruct (set_rm_ok m X) as (r & -> & D). cbn [bindr]. unfold seg_override. fold (def_of r). rewrite D.
  assert (ON : (ov =? NOTHING) = false) by (unfold NOTHING; lia). rewrite ON. cbn [negb].
  destruct s as [s|]; cbn [bindr fst snd]; (eexists; eexists; split; [reflexivity|]; split; [apply used_prefix; exact R|]); (split; [intros x SN M H|intros st n SS_ M ST H]);
    try contradiction; try discriminate; pose proof (made_coherent t M) as C; unfold GetOverrideAssume.
  - rewrite (holds_sym t ov x C H).
    destruct (a_flat (at_ t ov)) eqn:FA; [|reflexivity]. apply at_flat in FA; [|exact C]. rewrite (holds_sym t ov x C H) in FA. congruence.
  - injection SS_ as ->. destruct (a_flat (at_ t ov)) eqn:FA; [apply flat_holds in FA; [exfalso; exact (H _ FA)|exact C|exact R]|].
    destruct (a_sym (at_ t ov)) as [y|] eqn:E.
    + exfalso. apply (H y). split; [exact R|]. exists (at_ t ov). split; [|exact E]. unfold at_. apply nth_error_nth'. rewrite (c_len t C). lia.
    + unfold frame_of_sym. destruct ST as [-> | ->]; cbn; destruct (grp n); reflexivity.
Qed.

Lemma error_ok : forall grp t lea m s ov over, 0 <= ov < 6 -> a_err (at_ t ov) = true -> operand grp t lea m s ov over = Err.
Proof. intros grp t lea m s ov over R E. unfold operand. rewrite E. assert (ON : (ov =? NOTHING) = false) by (unfold NOTHING; lia). rewrite ON. reflexivity. Qed.

(** LEA uses no segment register; offsets are relative to the group. *)
Theorem lea_ok : forall grp t m st n over, exists_ m -> st = Internal \/ st = External ->
  operand grp t true m (Some {| y_state := st; y_seg := Some n |}) NOTHING over = Ok ([], Some (match grp n with Some g => TGrp g | None => TSeg n end)).
Proof.
  intros grp t m st n over X ST. unfold operand. destruct (set_rm_ok m X) as (r & -> & _). cbn.
  destruct ST as [-> | ->]; cbn; destruct (grp n); reflexivity.
Qed.

(** Parameters and locals are on the stack. *)
Theorem stack_ok : forall grp t m sg, made t -> exists_ m -> ~ holds t (usual m) FLAT ->
  exists pre f, operand grp t false m (Some {| y_state := Stack; y_seg := sg |}) NOTHING None = Ok (pre, f) /\ used m pre = Some 2.
Proof.
  intros grp t m sg M X NF. pose proof (made_coherent t M) as C. pose proof (usual_range m) as U.
  rewrite operand_eq by (try exact X; try reflexivity; left; discriminate).
  assert (FA : a_flat (at_ t (usual m)) = false).
  { destruct (a_flat (at_ t (usual m))) eqn:FA; [|reflexivity]. apply flat_holds in FA; [contradiction|exact C|exact U]. }
  unfold check_assume, GetAssume. rewrite FA, andb_false_r. cbn [y_state]. change (SS =? NOTHING) with false. cbn [negb]. change (SS =? NOTHING) with false. cbv iota.
  eexists. eexists. split; [reflexivity|]. cbn [fst]. apply used_prefix. unfold SS. lia.
Qed.

(** Externals without a segment, and symbols that are not defined yet, are
    accessed without prefix. *)
Theorem free_ok : forall grp t m, made t -> exists_ m ->
  (exists f, operand grp t false m (Some {| y_state := External; y_seg := None |}) NOTHING None = Ok ([], f) /\ forall x, holds t (usual m) x -> f = Some x) /\
  forall sg over, operand grp t false m (Some {| y_state := Undefined; y_seg := sg |}) NOTHING over = Ok ([], None).
Proof.
  intros grp t m M X. pose proof (made_coherent t M) as C. pose proof (usual_range m) as U. assert (DN : (usual m =? NOTHING) = false) by (unfold NOTHING; lia). split.
  - rewrite operand_eq by (try exact X; try reflexivity; left; discriminate).
    unfold check_assume, GetAssume. rewrite DN. cbn [negb andb].
    destruct (a_flat (at_ t (usual m))) eqn:FA.
    + rewrite DN. cbn [fst snd]. rewrite Z.eqb_refl. eexists. split; [reflexivity|]. intros x H. apply flat_holds in FA; [|exact C|exact U]. rewrite (holds_one t _ _ _ FA H). reflexivity.
    + cbn [y_state seg_of y_seg search_assume]. change (NOTHING =? NOTHING) with true. cbv iota. rewrite DN. cbn [negb]. rewrite DN. cbn [fst snd]. rewrite Z.eqb_refl.
      eexists. split; [reflexivity|]. intros x H. rewrite (holds_sym t _ x C H). reflexivity.
  - intros sg over. rewrite operand_eq by (try exact X; try reflexivity; left; discriminate). cbn [check_assume fst snd].
    assert (N : (NOTHING =? usual m) = false) by (unfold NOTHING; lia). rewrite N. reflexivity.
Qed.

Lemma run_made : forall ls t t', made t -> Forall (Forall item_ok) ls -> run t ls = Ok t' -> made t'.
Proof.
  induction ls as [|l ls IH]; intros t t' M F H; cbn [run] in H; [injection H as <-; exact M|].
  apply Forall_cons_iff in F as [F0 F]. destruct (assume t l) as [t1| |] eqn:E; try discriminate.
  apply (IH t1 t' (made_step t l t1 M F0 E) F H).
Qed.

Lemma run_ok : forall ls t t' c b, made t -> Forall (Forall item_ok) ls -> shows t c -> bars t b -> run t ls = Ok t' ->
  shows t' (fold_left said (concat ls) c) /\ bars t' (fold_left barred (concat ls) b).
Proof.
  induction ls as [|l ls IH]; intros t t' c b M F S B H; cbn [run] in H; [injection H as <-; split; assumption|].
  apply Forall_cons_iff in F as [F0 F]. destruct (assume t l) as [t1| |] eqn:E; try discriminate. pose proof (made_coherent t M) as C.
  cbn [concat]. rewrite !fold_left_app. apply (IH t1); [exact (made_step t l t1 M F0 E)|exact F| | |exact H].
  - apply (assume_said l t t1 c C F0 S E).
  - apply (assume_barred l t t1 b C F0 B E).
Qed.

Theorem history_ok : forall ls t, Forall (Forall item_ok) ls -> run init ls = Ok t -> made t /\ forall r, 0 <= r < 6 ->
  (forall x, holds t r x <-> fold_left said (concat ls) (fun _ => None) r = Some x) /\
  a_err (nth (Z.to_nat r) t none) = fold_left barred (concat ls) (fun _ => false) r.
Proof.
  intros ls t F H. pose proof (run_made ls init t made_init F H) as M. split; [exact M|]. pose proof (made_coherent t M) as C.
  destruct (run_ok ls init t (fun _ => None) (fun _ => false) made_init F) as [S B]; [| |exact H|].
  - intros r _. unfold at_, init. rewrite nth_repeat. reflexivity.
  - intros r _. unfold at_, init. rewrite nth_repeat. reflexivity.
  - intros r R. split; [|exact (B r R)]. intro x. rewrite <- (S r R). rewrite <- is_sym_ok by assumption. unfold is_sym.
    destruct (a_sym (at_ t r)) as [y|]; [rewrite same_ok; split; congruence|split; discriminate].
Qed.
