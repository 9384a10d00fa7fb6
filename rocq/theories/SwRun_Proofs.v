(** Executing the dispatch. *)
From Coq Require Import ZArith List Bool Lia Permutation.
From Verif Require Import Base Switch_Model Switch_Spec SwSort_Proofs SwTab_Proofs.
Import ListNotations.
Open Scope Z_scope.

Local Arguments swrap : simpl never.
Local Arguments Z.pow : simpl never.
Local Arguments Z.modulo : simpl never.
Local Arguments Z.div : simpl never.
Local Arguments Z.mul : simpl never.
Local Arguments Z.sub : simpl never.
Local Arguments Z.opp : simpl never.

Lemma run_more : forall f e x pc s l s', run f e x pc s = Reach l s' ->
  forall g, (f <= g)%nat -> run g e x pc s = Reach l s'.
Proof.
  induction f as [|f IH]; intros e x pc s l s' H g G; [discriminate|].
  destruct g as [|g]; [lia|]. cbn [run] in *.
  destruct (nth_error _ _) as [i|]; [|exact H].
  destruct (step e i s) as [s1|t s1|]; [apply IH; [exact H|lia]| |discriminate].
  destruct t; try exact H;
    (destruct (find _ _); [apply IH; [exact H|lia]|discriminate]).
Qed.

(** From [pc] the label [l] is reached in a state with [P]. *)
Definition ends (e : env) (x : Z) (pc : nat) (s : mst) (P : Z -> mst -> Prop) : Prop :=
  exists f l s', run f e x pc s = Reach l s' /\ P l s'.

Lemma ends_next : forall e x pc s P i s', nth_error (o_code (e_o e)) pc = Some i ->
  step e i s = Next s' -> ends e x (S pc) s' P -> ends e x pc s P.
Proof.
  intros e x pc s P i s' N ST (f & l & t & H & K). exists (S f), l, t. cbn [run].
  rewrite N, ST. auto.
Qed.

Lemma ends_go : forall e x pc s (P : Z -> mst -> Prop) i s' l, nth_error (o_code (e_o e)) pc = Some i ->
  step e i s = Go (Lb l) s' -> P l s' -> ends e x pc s P.
Proof.
  intros e x pc s P i s' l N ST K. exists 1%nat, l, s'. cbn [run]. rewrite N, ST. auto.
Qed.

Lemma ends_jmp : forall e x pc s P i s' t pc', nth_error (o_code (e_o e)) pc = Some i ->
  step e i s = Go t s' -> (forall l, t <> Lb l) -> find t (o_code (e_o e)) = Some pc' ->
  ends e x pc' s' P -> ends e x pc s P.
Proof.
  intros e x pc s P i s' t pc' N ST NL F (f & l & q & H & K). exists (S f), l, q. cbn [run].
  rewrite N, ST. destruct t; [exfalso; eapply NL; reflexivity|..]; rewrite F; auto.
Qed.

Lemma ends_arrives : forall e x keep s l,
  ends e x 0 s (fun t s' => t = l /\ m_stk s' = m_stk s /\
     forall r, r <> RA \/ keep = true -> m_reg s' r = m_reg s r) ->
  arrives e x keep s l.
Proof.
  intros e x keep s l (f & t & s' & H & -> & K1 & K2). exists f, s'.
  split; [|auto]. intros g G. exact (run_more f e x 0 s l s' H g G).
Qed.

(** ** Reads from the tables *)

Lemma nth_lt : forall (A : Type) (t : list A) i x, nth_error t i = Some x -> Z.of_nat i < zlen t.
Proof.
  intros A t i x H. assert (K : nth_error t i <> None) by (rewrite H; discriminate).
  apply nth_error_Some in K. unfold zlen. lia.
Qed.

Lemma look_ok : forall b es t i x, 0 < es -> nth_error t i = Some x ->
  look b es t (b + es * Z.of_nat i) (8 * es) = Some x.
Proof.
  intros b es t i x E H. pose proof (nth_lt _ _ _ _ H) as L. unfold look.
  replace (b + es * Z.of_nat i - b) with (Z.of_nat i * es) by lia.
  rewrite Z_mod_mult, Z.div_mul, Nat2Z.id by lia.
  rewrite (proj2 (Z.leb_le _ _)) by nia. rewrite (proj2 (Z.ltb_lt _ _)) by nia.
  rewrite !Z.eqb_refl. cbn. exact H.
Qed.

Lemma look_out : forall b es t a sz, a < b \/ b + es * zlen t <= a -> look b es t a sz = None.
Proof.
  intros b es t a sz H. unfold look.
  destruct (Z.leb_spec b a); [|reflexivity].
  destruct (Z.ltb_spec a (b + es * zlen t)); [lia|reflexivity].
Qed.

Definition wide (e : env) : Prop := e_w e = 32 \/ e_w e = 64.

Lemma rd1 : forall e i l, wide e -> nth_error (o_t1 (e_o e)) i = Some l ->
  rd e (e_b1 e + e_w e / 8 * Z.of_nat i) (e_w e) = Some l.
Proof.
  intros e i l W H. unfold rd.
  assert (E : 8 * (e_w e / 8) = e_w e) by (destruct W as [-> | ->]; reflexivity).
  assert (P : 0 < e_w e / 8) by (destruct W as [-> | ->]; reflexivity).
  pose proof (look_ok (e_b1 e) (e_w e / 8) _ _ _ P H) as L. rewrite E in L. rewrite L. reflexivity.
Qed.

Lemma rd2 : forall e i n, placed e -> 0 < o_es (e_o e) -> nth_error (o_t2 (e_o e)) i = Some n ->
  rd e (e_b2 e + o_es (e_o e) * Z.of_nat i) (8 * o_es (e_o e)) = Some n.
Proof.
  intros e i n (P1 & P2 & P3 & P4 & P5) E H. unfold rd.
  pose proof (nth_lt _ _ _ _ H) as L.
  rewrite look_out.
  - apply look_ok; assumption.
  - destruct P5 as [P5|P5]; [right; nia|left; nia].
Qed.

(** ** Numbers with sign *)

Lemma swrap_cong : forall n a b, a mod 2 ^ n = b mod 2 ^ n -> swrap n a = swrap n b.
Proof.
  intros n a b E. unfold swrap. rewrite (Zplus_mod a), (Zplus_mod b), E. reflexivity.
Qed.

Lemma swrap_cong' : forall n a, 0 < n -> swrap n a mod 2 ^ n = a mod 2 ^ n.
Proof.
  intros n a N. unfold swrap. rewrite Zminus_mod, Zmod_mod, <- Zminus_mod. f_equal. lia.
Qed.

Lemma swrap_inj : forall n a b, 0 < n -> swrap n a = swrap n b -> a mod 2 ^ n = b mod 2 ^ n.
Proof.
  intros n a b N E. rewrite <- (swrap_cong' n a N), <- (swrap_cong' n b N), E. reflexivity.
Qed.

Lemma eqb_swrap : forall n a b, 0 < n -> (a mod 2 ^ n =? b mod 2 ^ n) = (swrap n a =? swrap n b).
Proof.
  intros n a b N. destruct (Z.eqb_spec (swrap n a) (swrap n b)) as [E|E].
  - apply Z.eqb_eq. apply swrap_inj; assumption.
  - apply Z.eqb_neq. intro K. apply E. apply swrap_cong. exact K.
Qed.

Definition int32 (v : Z) : Prop := - 2 ^ 31 <= v < 2 ^ 31.

Lemma swrap_int32 : forall c8 v, int32 v -> swrap (bits c8) v = v.
Proof.
  intros c8 v R. unfold int32 in R. apply swrap_small.
  - destruct c8; cbn; lia.
  - destruct c8; cbn [bits].
    + change (2 ^ (64 - 1)) with 9223372036854775808. change (2 ^ 31) with 2147483648 in R. lia.
    + change (32 - 1) with 31. exact R.
Qed.

Lemma imm64_ok : forall v, int32 v -> imm64 v = Ok v.
Proof.
  intros v R. unfold imm64. pose proof (swrap_int32 false v R) as S0. cbn [bits] in S0.
  unfold int32 in R. change (2 ^ 31) with 2147483648 in R. change (2 ^ 32) with 4294967296.
  destruct (Z.leb_spec 4294967296 v); [lia|]. rewrite S0. reflexivity.
Qed.

Lemma imm_ok : forall (c8 : bool) v, int32 v -> (if c8 then imm64 v else Ok v) = Ok v.
Proof. intros [|] v R; [apply imm64_ok; exact R|reflexivity]. Qed.

Lemma bits_eq : forall c8 : bool, (if c8 then 64 else 32) = bits c8.
Proof. intros [|]; reflexivity. Qed.

Lemma bits_pos : forall c8, 0 < bits c8.
Proof. intros [|]; cbn; lia. Qed.

(** What a comparison of RA with a number of 32 bits gives. *)
Lemma cmp_ok : forall c8 s x v, int32 v ->
  f_e (flags (bits c8) s x v) = (swrap (bits c8) x =? v) /\
  f_l (flags (bits c8) s x v) = (swrap (bits c8) x <? v).
Proof.
  intros c8 s x v R. cbn [flags setf f_e f_l].
  rewrite (eqb_swrap (bits c8) x v (bits_pos c8)), (swrap_int32 c8 v R). auto.
Qed.

(** ** Methods 1 to 3 *)

Lemma at0 : forall (A : Type) (p q : list A) i, nth_error (p ++ i :: q) (length p) = Some i.
Proof. intros A p q i. rewrite nth_error_app2, Nat.sub_diag by lia. reflexivity. Qed.

Lemma at1 : forall (A : Type) (p q : list A) i j, nth_error (p ++ i :: j :: q) (S (length p)) = Some j.
Proof. intros A p q i j. rewrite nth_error_app2 by lia. replace (S (length p) - length p)%nat with 1%nat by lia. reflexivity. Qed.

Lemma skip_app : forall (A : Type) (p q : list A) k, nth_error (p ++ q) (length p + k) = nth_error q k.
Proof.
  intros A p q k. rewrite nth_error_app2 by lia. f_equal. lia.
Qed.

Lemma chain_ok : forall w cs, Forall (fun c => int32 (fst c)) cs ->
  exists c, chain w cs = Ok c /\
  forall e x p s, o_code (e_o e) = p ++ c ->
    ends e x (length p) s (fun l s' => l = pick (s_def w) cs (swrap (bits (s_8 w)) (m_reg s RA)) /\
       m_stk s' = m_stk s /\ m_reg s' = m_reg s).
Proof.
  intros w cs F. induction F as [|[v l] r R F (c & H & IH)]; cbn [chain].
  - exists [IJmp (Lb (s_def w))]. split; [reflexivity|]. intros e x p s C.
    eapply ends_go; [rewrite C; apply at0|reflexivity|].
    auto.
  - cbn [fst] in R. rewrite (imm_ok (s_8 w) v R). cbn [bindr]. rewrite H. cbn [bindr].
    rewrite bits_eq.
    eexists. split; [reflexivity|]. intros e x p s C.
    destruct (cmp_ok (s_8 w) s (m_reg s RA) v R) as [E1 _].
    eapply ends_next; [rewrite C; apply at0|reflexivity|].
    set (s1 := flags _ _ _ _) in *.
    assert (M : m_reg s1 = m_reg s) by reflexivity.
    assert (K : m_stk s1 = m_stk s) by reflexivity. clearbody s1.
    assert (N : nth_error (o_code (e_o e)) (S (length p)) = Some (IJcc CE (Lb l))).
    { rewrite C. apply at1. }
    cbn [pick]. destruct (Z.eqb_spec v (swrap (bits (s_8 w)) (m_reg s RA))) as [Q|Q].
    + eapply ends_go; [exact N|cbn [step holds]; rewrite E1|].
      * destruct (Z.eqb_spec (swrap (bits (s_8 w)) (m_reg s RA)) v); [reflexivity|congruence].
      * auto.
    + eapply ends_next; [exact N|cbn [step holds]; rewrite E1|].
      * destruct (Z.eqb_spec (swrap (bits (s_8 w)) (m_reg s RA)) v); [congruence|reflexivity].
      * destruct (IH e x (p ++ [ICmpI (bits (s_8 w)) RA v; IJcc CE (Lb l)]) s1) as (f & t & s' & G1 & G2 & G3 & G4).
        { rewrite C. rewrite <- app_assoc. reflexivity. }
        exists f, t, s'. rewrite app_length in G1. cbn [length] in G1.
        replace (S (S (length p))) with (length p + 2)%nat by lia.
        rewrite M in G2, G4. rewrite K in G3. auto.
Qed.

(** ** The test of the range *)

Lemma range_ok : forall w min max, int32 min -> int32 max ->
  exists rg, range w min max = Ok rg /\ length rg = 4%nat /\
  forall e x c s (P : Z -> mst -> Prop), o_code (e_o e) = rg ++ c ->
    (forall s', m_reg s' = m_reg s -> m_stk s' = m_stk s ->
       swrap (bits (s_8 w)) (m_reg s RA) < min \/ max < swrap (bits (s_8 w)) (m_reg s RA) ->
       P (s_def w) s') ->
    (forall s', m_reg s' = m_reg s -> m_stk s' = m_stk s ->
       min <= swrap (bits (s_8 w)) (m_reg s RA) <= max -> ends e x 4 s' P) ->
    ends e x 0 s P.
Proof.
  intros w min max R1 R2. unfold range.
  rewrite (imm_ok (s_8 w) min R1), (imm_ok (s_8 w) max R2). cbn [bindr]. rewrite bits_eq.
  eexists. split; [reflexivity|]. split; [reflexivity|].
  intros e x c s P C H1 H2. cbn [app] in C.
  destruct (cmp_ok (s_8 w) s (m_reg s RA) min R1) as [_ L1].
  eapply ends_next; [rewrite C; reflexivity|reflexivity|].
  set (s1 := flags _ _ _ _) in *.
  assert (M1 : m_reg s1 = m_reg s) by reflexivity.
  assert (K1 : m_stk s1 = m_stk s) by reflexivity. clearbody s1.
  destruct (Z.ltb_spec (swrap (bits (s_8 w)) (m_reg s RA)) min) as [A|A].
  - eapply ends_go; [rewrite C; reflexivity|cbn [step holds]; rewrite L1; reflexivity|].
    apply H1; auto.
  - eapply ends_next; [rewrite C; reflexivity|cbn [step holds]; rewrite L1; reflexivity|].
    destruct (cmp_ok (s_8 w) s1 (m_reg s1 RA) max R2) as [E2 L2].
    eapply ends_next; [rewrite C; reflexivity|reflexivity|].
    set (s2 := flags _ _ _ _) in *.
    assert (M2 : m_reg s2 = m_reg s) by exact M1.
    assert (K2 : m_stk s2 = m_stk s) by exact K1. clearbody s2. rewrite M1 in E2, L2.
    destruct (Z.ltb_spec max (swrap (bits (s_8 w)) (m_reg s RA))) as [B|B].
    + apply (ends_go e x 3 s2 P (IJcc CG (Lb (s_def w))) s2 (s_def w)).
      * rewrite C. reflexivity.
      * cbn [step holds]. rewrite E2, L2.
        destruct (Z.ltb_spec (swrap (bits (s_8 w)) (m_reg s RA)) max); [lia|].
        destruct (Z.eqb_spec (swrap (bits (s_8 w)) (m_reg s RA)) max); [lia|]. reflexivity.
      * apply H1; auto.
    + apply (ends_next e x 3 s2 P (IJcc CG (Lb (s_def w))) s2).
      * rewrite C. reflexivity.
      * cbn [step holds]. rewrite E2, L2.
        destruct (Z.ltb_spec (swrap (bits (s_8 w)) (m_reg s RA)) max); [reflexivity|].
        destruct (Z.eqb_spec (swrap (bits (s_8 w)) (m_reg s RA)) max); [reflexivity|lia].
      * apply H2; auto.
Qed.

(** ** Addresses *)

Lemma ea_small : forall k a b, a mod 2 ^ k = b mod 2 ^ k -> 0 <= b < 2 ^ k -> a mod 2 ^ k = b.
Proof. intros k a b E R. rewrite E. apply Z.mod_small. exact R. Qed.

(** The value of RA as a number with sign. *)
Lemma reg_value : forall c8 x, 0 <= x < 2 ^ bits c8 -> 0 <= swrap (bits c8) x ->
  x = swrap (bits c8) x.
Proof.
  intros c8 x R P.
  rewrite <- (Z.mod_small x (2 ^ bits c8) R) at 1. rewrite <- (swrap_cong' _ x (bits_pos c8)).
  apply Z.mod_small. split; [exact P|].
  assert (N : 0 < bits c8) by apply bits_pos.
  pose proof (swrap_range (bits c8) x N) as W.
  assert (2 ^ (bits c8 - 1) <= 2 ^ bits c8) by (apply Z.pow_le_mono_r; lia). lia.
Qed.

(** After "sub eax,min" RA has the distance to the least case. *)
Definition subtracted (w : swi) (min : Z) (s s' : mst) : Prop :=
  m_reg s' RA = swrap (bits (s_8 w)) (m_reg s RA) - min /\
  (forall r, r <> RA -> m_reg s' r = m_reg s r) /\ m_stk s' = m_stk s.

Lemma sub_ok : forall w min, int32 min ->
  exists c, sub_min w min = Ok c /\
  forall e x p q s (P : Z -> mst -> Prop), o_code (e_o e) = p ++ c ++ q ->
    0 <= m_reg s RA < 2 ^ bits (s_8 w) ->
    min <= swrap (bits (s_8 w)) (m_reg s RA) < min + 2 ^ 32 ->
    (forall s', subtracted w min s s' -> ends e x (length (p ++ c)) s' P) ->
    ends e x (length p) s P.
Proof.
  intros w min R. unfold sub_min.
  destruct (Z.eqb_spec min 0) as [->|NZ].
  - exists []. split; [reflexivity|]. intros e x p q s P C RR V H.
    rewrite app_nil_r in H. apply H. unfold subtracted. split; [|auto].
    rewrite Z.sub_0_r. apply reg_value; [exact RR|lia].
  - exists [ISubI (bits (s_8 w)) RA min]. split.
    { destruct (s_8 w); [rewrite imm64_ok by exact R; reflexivity|reflexivity]. }
    intros e x p q s P C RR V H.
    eapply ends_next; [rewrite C; apply at0|reflexivity|].
    replace (S (length p)) with (length (p ++ [ISubI (bits (s_8 w)) RA min]))
      by (rewrite app_length; cbn; lia).
    apply H. unfold subtracted. cbn [setr m_reg reg_eqb m_stk flags setf].
    split; [|split; [|reflexivity]].
    + apply ea_small.
      * rewrite Zminus_mod, <- (swrap_cong' _ (m_reg s RA) (bits_pos (s_8 w))), <- Zminus_mod. reflexivity.
      * assert (2 ^ 32 <= 2 ^ bits (s_8 w)) by (apply Z.pow_le_mono_r; destruct (s_8 w); cbn; lia). lia.
    + intros r NR. destruct r; try reflexivity. congruence.
Qed.

(** ** Methods 4, 6 and 7 *)

Section Tables.
Variables (w : swi) (e : env) (x : Z) (s0 : mst) (cs : list (Z * Z)).
Let v := swrap (bits (s_8 w)) (m_reg s0 RA).
Let min := mincase cs.
Let max := maxcase cs.
Hypothesis EW : e_w e = (if s_64 w then 64 else 32).
Hypothesis W8 : s_8 w = true -> s_64 w = true.
Hypothesis PL : placed e.
Hypothesis RR : 0 <= m_reg s0 RA < 2 ^ bits (s_8 w).
Hypothesis SP : max - min < 2 ^ 32.

Let done (l : Z) (s' : mst) : Prop :=
  l = pick (s_def w) cs v /\ m_stk s' = m_stk s0 /\
  forall r, r <> RA \/ false = true -> m_reg s' r = m_reg s0 r.

Lemma bits_le : 0 < bits (s_8 w) <= e_w e.
Proof.
  rewrite EW. split; [apply bits_pos|].
  destruct (s_8 w) eqn:E; [rewrite W8 by reflexivity; cbn; lia|destruct (s_64 w); cbn; lia].
Qed.

Lemma wide_e : wide e.
Proof. unfold wide. rewrite EW. destruct (s_64 w); auto. Qed.

Lemma code6_ok : forall rg, length rg = 4%nat -> int32 min ->
  exists c, code6 w min = Ok c /\
  (o_code (e_o e) = rg ++ c ->
   (min <= v <= max -> nth_error (o_t1 (e_o e)) (Z.to_nat (v - min)) = Some (pick (s_def w) cs v)) ->
   forall s, m_reg s = m_reg s0 -> m_stk s = m_stk s0 -> min <= v <= max -> ends e x 4 s done).
Proof.
  intros rg LR R. destruct (sub_ok w min R) as (sub & HS & SO). unfold code6. rewrite HS. cbn [bindr].
  assert (PW : 2 ^ 32 <= 2 ^ e_w e) by (rewrite EW; apply Z.pow_le_mono_r; destruct (s_64 w); lia).
  assert (T1 : forall i l, nth_error (o_t1 (e_o e)) i = Some l ->
     (e_b1 e + e_w e / 8 * Z.of_nat i) mod 2 ^ e_w e = e_b1 e + e_w e / 8 * Z.of_nat i).
  { intros i l H. pose proof (nth_lt _ _ _ _ H). apply Z.mod_small. destruct PL as (P1 & _ & P3 & _).
    assert (0 < e_w e / 8) by (destruct wide_e as [-> | ->]; reflexivity). nia. }
  pose proof wide_e as WD.
  destruct (s_64 w) eqn:W64; (eexists; split; [reflexivity|]); intros C T s M K V.
  - specialize (T V).
    replace 4%nat with (length rg). eapply SO; [exact C|rewrite M; exact RR|rewrite M; fold v; lia|].
    intros s1 (A1 & A2 & A3). rewrite M in A1, A2. fold v in A1.
    rewrite app_assoc in C. set (p := rg ++ sub) in *.
    assert (N : forall k, nth_error (o_code (e_o e)) (length p + k) =
       nth_error [IPush R10; ILea 64 R10 (at_tab 1 None);
                IMovM 64 RA (at_reg R10 (Some (RA, 8)) 0); IPop R10; IJmpR RA] k)
      by (intro k; rewrite C; apply skip_app).
    eapply ends_next; [rewrite <- (Nat.add_0_r (length p)); rewrite N; reflexivity|reflexivity|].
    eapply ends_next; [replace (S (length p)) with (length p + 1)%nat by lia; rewrite N; reflexivity|reflexivity|].
    assert (E1 : ea e s1 (at_tab 1 None) mod 2 ^ 64 = e_b1 e).
    { unfold ea. rewrite EW. cbn [at_tab a_tab a_base a_idx a_disp Z.eqb Pos.eqb].
      rewrite !Z.add_0_r, Z.mod_mod by discriminate. apply Z.mod_small.
      destruct PL as (P1 & _ & P3 & _). rewrite EW in P3.
      pose proof (nth_lt _ _ _ _ T). change (64 / 8) with 8 in P3. lia. }
    eapply ends_next; [replace (S (S (length p))) with (length p + 2)%nat by lia; rewrite N; reflexivity| |].
    { cbn [step]. unfold ea at 1. cbn [at_reg at_tab a_tab a_base a_idx a_disp setr sets m_reg reg_eqb].
      cbn [Z.eqb Pos.eqb]. rewrite ?Z.add_0_l, Z.add_0_r.
      change (ea e (sets s1 (m_reg s1 R10 :: m_stk s1)) (at_tab 1 None)) with (ea e s1 (at_tab 1 None)).
      rewrite E1, A1.
      replace (e_b1 e + (v - min) * 8) with (e_b1 e + e_w e / 8 * Z.of_nat (Z.to_nat (v - min)))
        by (rewrite EW; change (64 / 8) with 8; lia).
      rewrite (T1 _ _ T). change 64 with (if true then 64 else 32) at 1. rewrite <- EW.
      rewrite (rd1 e _ _ WD T). reflexivity. }
    eapply ends_next; [replace (S (S (S (length p)))) with (length p + 3)%nat by lia; rewrite N; reflexivity|reflexivity|].
    eapply ends_go; [replace (S (S (S (S (length p))))) with (length p + 4)%nat by lia; rewrite N; reflexivity|reflexivity|].
    cbn [m_reg setr reg_eqb m_stk sets]. split; [reflexivity|]. cbn. split; [congruence|].
    intros r [NR|D]; [|discriminate]. destruct r; cbn [reg_eqb]; try congruence; rewrite A2; congruence.
  - specialize (T V).
    replace 4%nat with (length rg). eapply SO; [exact C|rewrite M; exact RR|rewrite M; fold v; lia|].
    intros s1 (A1 & A2 & A3). rewrite M in A1, A2. fold v in A1.
    rewrite app_assoc in C. set (p := rg ++ sub) in *.
    eapply ends_go; [rewrite C; apply at0| |].
    { cbn [step]. unfold ea. cbn [at_tab a_tab a_base a_idx a_disp]. cbn [Z.eqb Pos.eqb].
      rewrite A1.
      replace (e_b1 e + 0 + (v - min) * 4 + 0) with (e_b1 e + e_w e / 8 * Z.of_nat (Z.to_nat (v - min)))
        by (rewrite EW; change (32 / 8) with 4; lia).
      rewrite (T1 _ _ T). change 32 with (if false then 64 else 32). rewrite <- EW.
      rewrite (rd1 e _ _ WD T). reflexivity. }
    split; [reflexivity|]. split; [congruence|].
    intros r [NR|D]; [|discriminate]. rewrite A2; congruence.
Qed.

(** The tables of the methods 4 and 7. *)
Definition counted (t2 t1 : list Z) : Prop :=
  exists i, nth_error t2 (Z.to_nat (v - min)) = Some (Z.of_nat i) /\
            nth_error t1 i = Some (pick (s_def w) cs v).

Lemma t1_mod : forall i l, nth_error (o_t1 (e_o e)) i = Some l ->
     (e_b1 e + e_w e / 8 * Z.of_nat i) mod 2 ^ e_w e = e_b1 e + e_w e / 8 * Z.of_nat i.
Proof.
  intros i l H. pose proof (nth_lt _ _ _ _ H). apply Z.mod_small. destruct PL as (P1 & _ & P3 & _).
  assert (0 < e_w e / 8) by (destruct wide_e as [-> | ->]; reflexivity). nia.
Qed.

Lemma t2_mod : forall i l, 0 < o_es (e_o e) -> nth_error (o_t2 (e_o e)) i = Some l ->
     (e_b2 e + o_es (e_o e) * Z.of_nat i) mod 2 ^ e_w e = e_b2 e + o_es (e_o e) * Z.of_nat i.
Proof.
  intros i l P H. pose proof (nth_lt _ _ _ _ H). apply Z.mod_small. destruct PL as (_ & P1 & _ & P3 & _).
  nia.
Qed.

Lemma b1_mod : forall i l, nth_error (o_t1 (e_o e)) i = Some l -> e_b1 e mod 2 ^ e_w e = e_b1 e.
Proof.
  intros i l H. pose proof (nth_lt _ _ _ _ H). apply Z.mod_small. destruct PL as (P1 & _ & P3 & _).
  assert (0 < e_w e / 8) by (destruct wide_e as [-> | ->]; reflexivity). nia.
Qed.

Lemma b2_mod : forall i l, 0 < o_es (e_o e) -> nth_error (o_t2 (e_o e)) i = Some l ->
  e_b2 e mod 2 ^ e_w e = e_b2 e.
Proof.
  intros i l P H. pose proof (nth_lt _ _ _ _ H). apply Z.mod_small. destruct PL as (_ & P1 & _ & P3 & _).
  nia.
Qed.

(** The end of the code with 64 bits: [R10] has the count. *)
Lemma tail64 : forall p pre s i k, s_64 w = true ->
  o_code (e_o e) = p ++ pre ++ [ILea 64 RA (at_tab 1 None);
            IMovM 64 RA (at_reg RA (Some (R10, 8)) 0); IPop R10; IJmpR RA] ->
  nth_error (o_t1 (e_o e)) i = Some (pick (s_def w) cs v) ->
  m_reg s R10 = Z.of_nat i -> m_stk s = m_reg s0 R10 :: m_stk s0 ->
  (forall r, r <> RA -> r <> R10 -> m_reg s r = m_reg s0 r) ->
  k = length (p ++ pre) ->
  ends e x k s done.
Proof.
  intros p pre s i k W64 C T1 HR HK HO ->. rewrite app_assoc in C. set (q := p ++ pre) in *.
  assert (N : forall k, nth_error (o_code (e_o e)) (length q + k) =
       nth_error [ILea 64 RA (at_tab 1 None);
            IMovM 64 RA (at_reg RA (Some (R10, 8)) 0); IPop R10; IJmpR RA] k)
      by (intro k; rewrite C; apply skip_app).
  assert (E64 : e_w e = 64) by (rewrite EW, W64; reflexivity).
  eapply ends_next; [rewrite <- (Nat.add_0_r (length q)); rewrite N; reflexivity|reflexivity|].
  assert (E1 : ea e s (at_tab 1 None) mod 2 ^ 64 = e_b1 e).
  { unfold ea. cbn [at_tab a_tab a_base a_idx a_disp Z.eqb Pos.eqb].
    rewrite !Z.add_0_r, (b1_mod _ _ T1), <- E64. apply (b1_mod _ _ T1). }
  eapply ends_next; [replace (S (length q)) with (length q + 1)%nat by lia; rewrite N; reflexivity| |].
  { cbn [step]. unfold ea at 1. cbn [at_reg a_tab a_base a_idx a_disp setr sets m_reg reg_eqb].
    cbn [Z.eqb Pos.eqb]. rewrite E1, HR, Z.add_0_l, Z.add_0_r.
    replace (e_b1 e + Z.of_nat i * 8) with (e_b1 e + e_w e / 8 * Z.of_nat i)
      by (rewrite E64; change (64 / 8) with 8; lia).
    rewrite (t1_mod _ _ T1). rewrite <- E64. rewrite (rd1 e _ _ wide_e T1). reflexivity. }
  eapply ends_next; [replace (S (S (length q))) with (length q + 2)%nat by lia; rewrite N; reflexivity| |].
  { cbn [step setr m_stk]. rewrite HK. reflexivity. }
  eapply ends_go; [replace (S (S (S (length q)))) with (length q + 3)%nat by lia; rewrite N; reflexivity|reflexivity|].
  cbn [m_reg setr reg_eqb m_stk sets]. split; [reflexivity|]. cbn. split; [reflexivity|].
  intros r [NR|D]; [|discriminate]. destruct r; cbn [reg_eqb]; try congruence; apply HO; congruence.
Qed.

(** The end of the code with 32 bits: [RA] has the count. *)
Lemma tail32 : forall p s i k, s_64 w = false ->
  o_code (e_o e) = p ++ [IJmpM 32 (at_tab 1 (Some (RA, 4)))] ->
  nth_error (o_t1 (e_o e)) i = Some (pick (s_def w) cs v) ->
  m_reg s RA = Z.of_nat i -> m_stk s = m_stk s0 ->
  (forall r, r <> RA -> m_reg s r = m_reg s0 r) ->
  k = length p ->
  ends e x k s done.
Proof.
  intros p s i k W64 C T1 HR HK HO ->.
  assert (E32 : e_w e = 32) by (rewrite EW, W64; reflexivity).
  eapply ends_go; [rewrite C; apply at0| |].
  { cbn [step]. unfold ea. cbn [at_tab a_tab a_base a_idx a_disp]. cbn [Z.eqb Pos.eqb].
    rewrite HR, !Z.add_0_r.
    replace (e_b1 e + Z.of_nat i * 4) with (e_b1 e + e_w e / 8 * Z.of_nat i)
        by (rewrite E32; change (32 / 8) with 4; lia).
    rewrite (t1_mod _ _ T1). rewrite <- E32. rewrite (rd1 e _ _ wide_e T1). reflexivity. }
  split; [reflexivity|]. split; [congruence|].
  intros r [NR|D]; [|discriminate]. apply HO; congruence.
Qed.

Lemma code7_ok : forall rg, length rg = 4%nat -> int32 min ->
  exists c, code7 w min = Ok c /\
  (o_code (e_o e) = rg ++ c -> o_es (e_o e) = 2 ->
   (min <= v <= max -> counted (o_t2 (e_o e)) (o_t1 (e_o e))) ->
   forall s, m_reg s = m_reg s0 -> m_stk s = m_stk s0 -> min <= v <= max -> ends e x 4 s done).
Proof.
  intros rg LR R. destruct (sub_ok w min R) as (sub & HS & SO). unfold code7. rewrite HS. cbn [bindr].
  assert (WW : s_64 w = true \/ s_64 w = false) by (destruct (s_64 w); auto).
  destruct WW as [W64|W64]; rewrite W64; (eexists; split; [reflexivity|]); intros C ES T s M K V;
    destruct (T V) as (i & T2 & T1).
  - assert (E64 : e_w e = 64) by (rewrite EW, W64; reflexivity).
    pose proof (b2_mod _ _ ltac:(lia) T2) as B2. pose proof (t2_mod _ _ ltac:(lia) T2) as M2.
    rewrite ES in M2.
    cbn [app] in C.
    assert (E1 : forall s, ea e s (at_tab 2 None) mod 2 ^ 64 = e_b2 e).
    { intro s1. unfold ea. cbn [at_tab a_tab a_base a_idx a_disp Z.eqb Pos.eqb].
      rewrite !Z.add_0_r, B2, <- E64. exact B2. }
    replace 4%nat with (length rg).
    eapply ends_next; [rewrite C; apply at0|reflexivity|].
    eapply ends_next; [rewrite C; apply at1|reflexivity|].
    rewrite E1.
    set (s2 := setr (sets s (m_reg s R10 :: m_stk s)) R10 (e_b2 e)).
    set (p := rg ++ [IPush R10; ILea 64 R10 (at_tab 2 None)]).
    replace (S (S (length rg))) with (length p) by (unfold p; rewrite app_length; cbn; lia).
    eapply (SO e x p).
    { rewrite C. unfold p. rewrite <- app_assoc. reflexivity. }
    { cbn. rewrite M. exact RR. }
    { cbn. rewrite M. fold v. lia. }
    intros s3 (A1 & A2 & A3). change (m_reg s2 RA) with (m_reg s RA) in A1. rewrite M in A1. fold v in A1.
    eapply ends_next.
    { rewrite C. unfold p. replace (rg ++ IPush R10 :: ILea 64 R10 (at_tab 2 None) :: sub ++ _)
       with ((p ++ sub) ++ [IMovzx R10 16 (at_reg R10 (Some (RA, 2)) 0);
            ILea 64 RA (at_tab 1 None); IMovM 64 RA (at_reg RA (Some (R10, 8)) 0); IPop R10; IJmpR RA])
       by (unfold p; rewrite <- !app_assoc; reflexivity). apply at0. }
    { cbn [step]. unfold ea. cbn [at_reg a_tab a_base a_idx a_disp]. cbn [Z.eqb Pos.eqb].
      rewrite A1, (A2 R10) by discriminate. cbn [s2 setr m_reg reg_eqb]. rewrite Z.add_0_l, Z.add_0_r.
      replace (e_b2 e + (v - min) * 2) with (e_b2 e + 2 * Z.of_nat (Z.to_nat (v - min))) by lia.
      rewrite M2. pose proof (rd2 e _ _ PL ltac:(lia) T2) as RD. rewrite ES in RD.
      change (8 * 2) with 16 in RD. rewrite RD. reflexivity. }
    eapply (tail64 p (sub ++ [IMovzx R10 16 (at_reg R10 (Some (RA, 2)) 0)]) _ i); try assumption.
    + rewrite C. unfold p. rewrite <- !app_assoc. reflexivity.
    + reflexivity.
    + cbn [setr m_stk]. rewrite A3. cbn. rewrite M, K. reflexivity.
    + intros r N1 N2. destruct r; cbn [setr m_reg reg_eqb]; try congruence; rewrite A2 by congruence;
        cbn; rewrite M; reflexivity.
    + rewrite !app_length. cbn. lia.
  - assert (E32 : e_w e = 32) by (rewrite EW, W64; reflexivity).
    pose proof (b2_mod _ _ ltac:(lia) T2) as B2. pose proof (t2_mod _ _ ltac:(lia) T2) as M2.
    rewrite ES in M2.
    replace 4%nat with (length rg). eapply SO; [exact C|rewrite M; exact RR|rewrite M; fold v; lia|].
    intros s1 (A1 & A2 & A3). rewrite M in A1, A2. fold v in A1.
    rewrite app_assoc in C.
    eapply ends_next; [rewrite C; apply at0| |].
    { cbn [step]. unfold ea. cbn [at_tab a_tab a_base a_idx a_disp]. cbn [Z.eqb Pos.eqb].
      rewrite A1, !Z.add_0_r.
      replace (e_b2 e + (v - min) * 2) with (e_b2 e + 2 * Z.of_nat (Z.to_nat (v - min))) by lia.
      rewrite M2. pose proof (rd2 e _ _ PL ltac:(lia) T2) as RD. rewrite ES in RD.
      change (8 * 2) with 16 in RD. rewrite RD. reflexivity. }
    eapply (tail32 (rg ++ sub ++ [IMovzx RA 16 (at_tab 2 (Some (RA, 2)))]) _ i); try assumption.
    + rewrite C. rewrite <- !app_assoc. reflexivity.
    + reflexivity.
    + cbn [setr m_stk]. congruence.
    + intros r N1. destruct r; cbn [setr m_reg reg_eqb]; try congruence; rewrite A2 by congruence; reflexivity.
    + rewrite !app_length. cbn. lia.
Qed.

Lemma v_cong : m_reg s0 RA mod 2 ^ bits (s_8 w) = v mod 2 ^ bits (s_8 w).
Proof. unfold v. rewrite swrap_cong' by apply bits_pos. reflexivity. Qed.

Lemma code4_ok : forall rg, length rg = 4%nat -> int32 min ->
  exists c, code4 w min = Ok c /\
  (o_code (e_o e) = rg ++ c -> o_es (e_o e) = 1 ->
   (min <= v <= max -> counted (o_t2 (e_o e)) (o_t1 (e_o e))) ->
   forall s, m_reg s = m_reg s0 -> m_stk s = m_stk s0 -> min <= v <= max -> ends e x 4 s done).
Proof.
  intros rg LR R. unfold code4. pose proof v_cong as VC.
  assert (WW : s_64 w = true \/ s_64 w = false) by (destruct (s_64 w); auto).
  destruct WW as [W64|W64]; rewrite W64; (eexists; split; [reflexivity|]); intros C ES T s M K V;
    destruct (T V) as (i & T2 & T1).
  - assert (E64 : e_w e = 64) by (rewrite EW, W64; reflexivity).
    pose proof (b2_mod _ _ ltac:(lia) T2) as B2. pose proof (t2_mod _ _ ltac:(lia) T2) as M2.
    rewrite ES in M2.
    assert (E1 : forall s, ea e s (at_tab 2 None) mod 2 ^ 64 = e_b2 e).
    { intro s1. unfold ea. cbn [at_tab a_tab a_base a_idx a_disp Z.eqb Pos.eqb].
      rewrite !Z.add_0_r, B2, <- E64. exact B2. }
    cbn [app] in C.
    replace 4%nat with (length rg).
    eapply ends_next; [rewrite C; apply at0|reflexivity|].
    eapply ends_next; [rewrite C; apply at1|reflexivity|].
    rewrite E1.
    set (s2 := setr (sets s (m_reg s R10 :: m_stk s)) R10 (e_b2 e)).
    assert (X : exists k s3, m_reg s3 RA mod 2 ^ 64 = v mod 2 ^ 64 /\ m_reg s3 R10 = e_b2 e /\
       m_stk s3 = m_reg s0 R10 :: m_stk s0 /\ (forall r, r <> RA -> r <> R10 -> m_reg s3 r = m_reg s0 r) /\
       k = length (rg ++ [IPush R10; ILea 64 R10 (at_tab 2 None)] ++ (if s_8 w then [] else [ICdqe])) /\
       (ends e x k s3 done -> ends e x (S (S (length rg))) s2 done)).
    { assert (W : s_8 w = true \/ s_8 w = false) by (case (s_8 w); auto).
      destruct W as [W|W]; rewrite W in VC, C |- *; cbn [bits app] in VC, C |- *.
      - exists (S (S (length rg))), s2. cbn [s2 setr sets m_reg m_stk reg_eqb]. rewrite M, K.
        split; [exact VC|]. split; [reflexivity|]. split; [reflexivity|].
        split; [intros [] ? ?; cbn; congruence|]. split; [rewrite app_length; cbn; lia|auto].
      - exists (S (S (S (length rg)))), (setr s2 RA (swrap 32 (m_reg s2 RA) mod 2 ^ 64)).
        cbn [s2 setr sets m_reg m_stk reg_eqb]. rewrite M, K.
        split; [rewrite Z.mod_mod by discriminate; unfold v; rewrite W; reflexivity|].
        split; [reflexivity|]. split; [reflexivity|].
        split; [intros [] ? ?; cbn; congruence|]. split; [rewrite app_length; cbn; lia|].
        intro H. apply (ends_next e x (S (S (length rg))) s2 done ICdqe
          (setr s2 RA (swrap 32 (m_reg s2 RA) mod 2 ^ 64))).
        + rewrite C. rewrite nth_error_app2 by lia.
          replace (S (S (length rg)) - length rg)%nat with 2%nat by lia. reflexivity.
        + reflexivity.
        + change (m_reg s2 RA) with (m_reg s RA). rewrite M. exact H. }
    destruct X as (k & s3 & A1 & A2 & A3 & A4 & KE & A5). apply A5. clear A5. clearbody s2. clear s2.
    set (p := rg ++ [IPush R10; ILea 64 R10 (at_tab 2 None)] ++ (if s_8 w then [] else [ICdqe])) in *.
    assert (C' : o_code (e_o e) = p ++ [IMovzx R10 8 (at_reg R10 (Some (RA, 1)) (- min));
            ILea 64 RA (at_tab 1 None); IMovM 64 RA (at_reg RA (Some (R10, 8)) 0); IPop R10; IJmpR RA]).
    { rewrite C. unfold p. rewrite <- !app_assoc. reflexivity. }
    rewrite KE.
    eapply ends_next; [rewrite C'; apply at0| |].
    { cbn [step]. unfold ea. cbn [at_reg a_tab a_base a_idx a_disp]. cbn [Z.eqb Pos.eqb].
      rewrite A2, Z.add_0_l, Z.mul_1_r.
      replace ((e_b2 e + m_reg s3 RA + - min) mod 2 ^ e_w e) with (e_b2 e + 1 * Z.of_nat (Z.to_nat (v - min))).
      - pose proof (rd2 e _ _ PL ltac:(lia) T2) as RD. rewrite ES in RD.
        change (8 * 1) with 8 in RD. rewrite RD. reflexivity.
      - rewrite <- M2, E64. replace (e_b2 e + m_reg s3 RA + - min) with (m_reg s3 RA + (e_b2 e - min)) by lia.
        rewrite (Zplus_mod (m_reg s3 RA)), A1, <- Zplus_mod. f_equal. lia. }
    eapply (tail64 p [IMovzx R10 8 (at_reg R10 (Some (RA, 1)) (- min))] _ i); try assumption.
    + reflexivity.
    + intros r N1 N2. destruct r; cbn [setr m_reg reg_eqb]; try congruence; apply A4; congruence.
    + rewrite app_length. cbn. lia.
  - assert (E32 : e_w e = 32) by (rewrite EW, W64; reflexivity).
    assert (W : s_8 w = false) by (apply not_true_is_false; intro Q; rewrite W8 in W64 by exact Q; discriminate).
    rewrite W in VC. cbn [bits] in VC.
    pose proof (t2_mod _ _ ltac:(lia) T2) as M2. rewrite ES in M2.
    replace 4%nat with (length rg).
    eapply ends_next; [rewrite C; apply at0| |].
    { cbn [step]. unfold ea. cbn [a_tab a_base a_idx a_disp]. cbn [Z.eqb Pos.eqb].
      rewrite M, Z.add_0_r.
      replace ((e_b2 e + m_reg s0 RA + - min) mod 2 ^ e_w e) with (e_b2 e + 1 * Z.of_nat (Z.to_nat (v - min))).
      - pose proof (rd2 e _ _ PL ltac:(lia) T2) as RD. rewrite ES in RD.
        change (8 * 1) with 8 in RD. rewrite RD. reflexivity.
      - rewrite <- M2, E32. replace (e_b2 e + m_reg s0 RA + - min) with (m_reg s0 RA + (e_b2 e - min)) by lia.
        rewrite (Zplus_mod (m_reg s0 RA)), VC, <- Zplus_mod. f_equal. lia. }
    eapply (tail32 (rg ++ [IMovzx RA 8 {| a_tab := 2; a_base := Some RA; a_idx := None; a_disp := - min |}]) _ i);
      try assumption.
    + rewrite C. rewrite <- !app_assoc. reflexivity.
    + reflexivity.
    + intros r N1. destruct r; cbn [setr m_reg reg_eqb]; try congruence; rewrite M; reflexivity.
    + rewrite !app_length. cbn. lia.
Qed.
End Tables.
