From Verif Require Import Base Struct_Model Struct_Spec StructRun_Spec Struct_Proofs StructNames_Proofs.

(** ** alignment argument *)
Lemma StructAlignment_iff fa a al : - 2 ^ 31 <= a < 2 ^ 31 -> StructAlignment fa (Some a) = Ok al <-> (al = a /\ a <= 64 /\ exists k, 0 <= k /\ a = 2 ^ k).
Proof.
  intros B. unfold StructAlignment. rewrite s32_small by exact B. cbv zeta. rewrite Z.gtb_ltb. unfold MAX_STRUCT_ALIGN. destruct (Z.ltb_spec 64 a) as [L|L].
  { split; [discriminate|]. intros (_ & H & _). lia. }
  assert (PW : forall k, 0 <= k -> 2 ^ k <= 64 -> In k [0; 1; 2; 3; 4; 5; 6]).
  { intros k K H. assert (k < 7). { destruct (Z_lt_le_dec k 7); [assumption|]. pose proof (Z.pow_le_mono_r 2 7 k ltac:(lia) l). change (2 ^ 7) with 128 in *. lia. } cbn [In]. lia. }
  split.
  - intros H. destruct (Z.eqb_spec (power_loop 7 1 a) a) as [E|E]; [|discriminate]. injection H as <-. split; [reflexivity|]. split; [lia|].
    cbn [power_loop] in E. repeat match type of E with context [?x <? a] => destruct (Z.ltb_spec x a) end; cbn [Z.mul Pos.mul] in E;
      first [exists 0; split; [lia|]; change (2 ^ 0) with 1; lia | exists 1; split; [lia|]; change (2 ^ 1) with 2; lia | exists 2; split; [lia|]; change (2 ^ 2) with 4; lia
            | exists 3; split; [lia|]; change (2 ^ 3) with 8; lia | exists 4; split; [lia|]; change (2 ^ 4) with 16; lia | exists 5; split; [lia|]; change (2 ^ 5) with 32; lia | exists 6; split; [lia|]; change (2 ^ 6) with 64; lia].
  - intros (-> & _ & k & K & ->). specialize (PW k K L). cbn [In] in PW. repeat destruct PW as [<-|PW]; try contradiction; reflexivity.
Qed.

(** ** whole definitions *)
Definition good_align (al : Z) : Prop := 1 <= al <= 64.
Lemma struct_layout cs u fa arg body al c : StructAlignment fa arg = Ok al -> 1 <= al <= 64 -> all_of fine body -> sum_of weight body + 64 < 2 ^ 31 ->
  StructDef cs u fa arg body = Ok c -> exists p t, lines al u body (0, 0, 0) (head c) (p, t, max_mbr_size c) /\ place (eff al (max_mbr_size c)) t (total_size c).
Proof.
  intros SA AB FI W R. unfold StructDef in R. rewrite SA in R. cbn [bindr] in R.
  pose proof (run_all_lines cs al body ltac:(apply Forall_forall; intros d _; apply run_line) (open_struct u al) 0 eq_refl FI (open_inv u al AB) ltac:(lia)) as L.
  destruct (run_all (run cs) body (open_struct u al)) as [c1| |]; cbn [bindr] in R; [|discriminate|discriminate]. injection R as <-.
  destruct L as (fl & LN & HD & UN & AL & IV). cbn [head open_struct app is_union] in *. destruct (finish_ok c1 _ IV ltac:(lia)) as (P & HF & MF & _).
  exists (offset c1), (total_size c1). rewrite HF, MF, HD. rewrite AL in P. split; [exact LN|exact P].
Qed.
Lemma struct_no_ub cs u fa arg body al : StructAlignment fa arg = Ok al -> 1 <= al <= 64 -> all_of fine body -> sum_of weight body + 64 < 2 ^ 31 -> StructDef cs u fa arg body <> UB.
Proof.
  intros SA AB FI W R. unfold StructDef in R. rewrite SA in R. cbn [bindr] in R.
  pose proof (run_all_lines cs al body ltac:(apply Forall_forall; intros d _; apply run_line) (open_struct u al) 0 eq_refl FI (open_inv u al AB) ltac:(lia)) as L.
  destruct (run_all (run cs) body (open_struct u al)) as [c1| |]; cbn [bindr] in R; [discriminate|discriminate|exact L].
Qed.
Lemma struct_accepted cs u fa arg body al : StructAlignment fa arg = Ok al -> 1 <= al <= 64 -> all_of fine body -> sum_of weight body + 64 < 2 ^ 31 ->
  all_of (no_org u) body -> distinct cs (flat_map dnames body) -> all_of (inner_distinct cs) body -> max_of ddepth body <= 31 -> all_of shallow body -> exists c, StructDef cs u fa arg body = Ok c.
Proof.
  intros SA AB FI W NO DI ID DP SH. pose proof (struct_no_ub cs u fa arg body al SA AB FI W) as NU. unfold StructDef in *. rewrite SA in *. cbn [bindr] in *.
  assert (NE : run_all (run cs) body (open_struct u al) <> Err).
  { apply run_all_no_err; [apply Forall_forall; intros d _; apply run_no_err|exact NO|exact ID|exact SH|cbn [head open_struct]; change (depths []) with 0; pose proof (max_of_nonneg ddepth body); lia| |exact DI|intros d x x' _; apply run_union]. intros ? ? _ []. }
  destruct (run_all (run cs) body (open_struct u al)) as [c1| |]; cbn [bindr] in *; [eauto|congruence|congruence].
Qed.
Lemma struct_names cs u fa arg body c : StructDef cs u fa arg body = Ok c ->
  names (members (head c)) = flat_map dnames body /\ depths (head c) = max_of ddepth body /\ (all_of (types_distinct cs) body -> distinct cs (names (members (head c)))).
Proof.
  intros R. unfold StructDef in R. destruct (StructAlignment fa arg) as [al| |]; cbn [bindr] in R; [|discriminate|discriminate].
  destruct (run_all (run cs) body (open_struct u al)) as [c1| |] eqn:RB; cbn [bindr] in R; [|discriminate|discriminate]. injection R as <-. rewrite finish_head.
  destruct (run_all_adds cs body ltac:(apply Forall_forall; intros d _; apply run_adds) _ _ RB) as [(N & D & _) T]. cbn [head open_struct members flat_map names map app] in N. rewrite D, N.
  split; [reflexivity|]. split; [cbn [head open_struct]; change (depths []) with 0; pose proof (max_of_nonneg ddepth body); lia|exact T].
Qed.

(** ** what the layout says *)
Lemma line_grow al u d p t m fl p' t' m' : line al u d (p, t, m) fl (p', t', m') -> t <= t' /\ m <= m'.
Proof. intros H. inversion H; subst; lia. Qed.
Lemma lines_grow al u l : forall p t m fl p' t' m', lines al u l (p, t, m) fl (p', t', m') -> t <= t' /\ m <= m'.
Proof.
  induction l as [|d l IH]; intros p t m fl p' t' m' H; inversion H as [|? ? ? ? f1 s2 f2 ? L1 L2]; subst; [lia|]. destruct s2 as [[p2 t2] m2]. apply line_grow in L1. apply IH in L2. lia.
Qed.
Definition inside (t : Z) (f : sfield) : Prop := 0 <= f_off f /\ 0 <= f_size f /\ f_off f + f_size f <= t.
Lemma line_inside al u d p t m fl p' t' m' : 1 <= al -> fine d -> 0 <= p -> line al u d (p, t, m) fl (p', t', m') -> 0 <= p' /\ Forall (inside t') fl.
Proof.
  intros A FI P H. inversion H as [n sz ts vt ? ? ? off PL|n sz ts vt ? ? ?|v ? ? ? ? PL|v ?|o ? ? ?|u' n body ? ? ? fl1 p1 t1 m1 size off LB PS PL|u' n body ? ? ? fl1 p1 t1 m1 size LB PS]; subst; cbn [fine] in FI.
  - destruct FI as (S0 & T0 & _). destruct PL as [PL _]. split; [lia|]. constructor; [|constructor]. unfold inside. cbn [f_off f_size]. lia.
  - destruct FI as (S0 & T0 & _). split; [lia|]. constructor; [|constructor]. unfold inside. cbn [f_off f_size]. lia.
  - destruct PL as [PL _]. split; [lia|constructor].
  - split; [lia|constructor].
  - split; [lia|constructor].
  - apply lines_grow in LB. destruct PL as [PL _]. destruct PS as [PS _]. split; [lia|]. constructor; [|constructor]. unfold inside. cbn [f_off f_size]. lia.
  - apply lines_grow in LB. destruct PS as [PS _]. split; [lia|]. constructor; [|constructor]. unfold inside. cbn [f_off f_size]. lia.
Qed.
Lemma lines_inside al u l : forall p t m fl p' t' m', 1 <= al -> all_of fine l -> 0 <= p -> lines al u l (p, t, m) fl (p', t', m') -> 0 <= p' /\ Forall (inside t') fl.
Proof.
  induction l as [|d l IH]; intros p t m fl p' t' m' A FI P H; inversion H as [|? ? ? ? f1 s2 f2 ? L1 L2]; subst; [split; [exact P|constructor]|]. destruct s2 as [[p2 t2] m2]. destruct FI as [F1 F2].
  destruct (line_inside _ _ _ _ _ _ _ _ _ _ A F1 P L1) as [P2 I1]. destruct (IH _ _ _ _ _ _ _ A F2 P2 L2) as [P3 I2]. split; [exact P3|]. apply Forall_app. split; [|exact I2].
  apply lines_grow in L2. apply Forall_impl with (2 := I1). unfold inside. intros f. lia.
Qed.
(** without ORG positions only grow *)
Definition is_org (d : def) : bool := match d with DOrg _ => true | _ => false end.
Fixpoint seq_from (p : Z) (fl : list sfield) (p' : Z) : Prop :=
  match fl with [] => p <= p' | f :: fl => p <= f_off f /\ seq_from (f_off f + f_size f) fl p' end.
Lemma seq_mono fl : forall p q p' q', q <= p -> p' <= q' -> seq_from p fl p' -> seq_from q fl q'.
Proof. induction fl as [|f fl IH]; cbn [seq_from]; intros p q p' q' L1 L2 H; [lia|]. destruct H as [H1 H2]. split; [lia|]. eapply IH; [|exact L2|exact H2]. lia. Qed.
Lemma seq_app a b : forall p q r, seq_from p a q -> seq_from q b r -> seq_from p (a ++ b) r.
Proof. induction a as [|f a IH]; cbn [seq_from app]; intros p q r H1 H2; [eapply seq_mono; [exact H1| |exact H2]; lia|]. destruct H1 as [H1 H3]. split; [exact H1|]. eapply IH; [exact H3|exact H2]. Qed.
Lemma line_seq al d p t m fl p' t' m' : 1 <= al -> fine d -> is_org d = false -> line al false d (p, t, m) fl (p', t', m') -> seq_from p fl p'.
Proof.
  intros A FI NO H. inversion H as [n sz ts vt ? ? ? off PL|n sz ts vt ? ? ?|v ? ? ? ? PL|v ?|o ? ? ?|u' n body ? ? ? fl1 p1 t1 m1 size off LB PS PL|u' n body ? ? ? fl1 p1 t1 m1 size LB PS]; subst; cbn [fine is_org seq_from f_off f_size] in *.
  - destruct PL as [PL _]. lia.
  - destruct PL as [PL _]. lia.
  - discriminate.
  - destruct PL as [PL _]. lia.
Qed.
Lemma lines_seq al l : forall p t m fl p' t' m', 1 <= al -> all_of fine l -> existsb is_org l = false -> lines al false l (p, t, m) fl (p', t', m') -> seq_from p fl p'.
Proof.
  induction l as [|d l IH]; intros p t m fl p' t' m' A FI NO H; inversion H as [|? ? ? ? f1 s2 f2 ? L1 L2]; subst; [cbn [seq_from]; lia|]. destruct s2 as [[p2 t2] m2]. destruct FI as [F1 F2].
  cbn [existsb] in NO. apply Bool.orb_false_iff in NO as [NO1 NO2]. eapply seq_app; [eapply line_seq; eassumption|eapply IH; eassumption].
Qed.
Lemma seq_order fl : forall p p', Forall (fun f => 0 <= f_size f) fl -> seq_from p fl p' -> forall a f b g c, fl = a ++ f :: b ++ g :: c -> f_off f + f_size f <= f_off g.
Proof.
  induction fl as [|x fl IH]; intros p p' SZ H a f b g c E; [destruct a; discriminate|]. apply Forall_cons_iff in SZ as [S1 S2]. cbn [seq_from] in H. destruct H as [H1 H2]. destruct a as [|y a]; cbn [app] in E; injection E as E1 E2.
  - subst x. clear IH H1 S1 p. revert H2. generalize (f_off f + f_size f) as q. revert E2 S2. revert fl. induction b as [|y b IH]; intros fl E2 S2 q H; subst fl; cbn [app seq_from] in H.
    + lia.
    + destruct H as [H1 H2]. cbn [app] in S2. apply Forall_cons_iff in S2 as [S1 S2]. specialize (IH _ eq_refl S2 _ H2). lia.
  - eapply IH; [exact S2|exact H2|exact E2].
Qed.
(** the field of a given line *)
Lemma lines_split al u l1 : forall d l2 s fl s', lines al u (l1 ++ d :: l2) s fl s' -> exists f1 fm f2 s1 s2, fl = f1 ++ fm ++ f2 /\ line al u d s1 fm s2.
Proof.
  induction l1 as [|x l1 IH]; intros d l2 s fl s' H; cbn [app] in H; inversion H as [|? ? ? ? fa sa fb ? L1 L2]; subst.
  - exists [], fa, fb, s, sa. split; [reflexivity|exact L1].
  - destruct (IH _ _ _ _ _ L2) as (f1 & fm & f2 & s1 & s2 & E & L). exists (fa ++ f1), fm, f2, s1, s2. rewrite E, app_assoc. split; [reflexivity|exact L].
Qed.
Lemma min_pow2 al k : (exists j, 0 <= j /\ al = 2 ^ j) -> 0 <= k -> exists i, 0 <= i /\ Z.min al (2 ^ k) = 2 ^ i.
Proof. intros (j & J & ->) K. destruct (Z.min_spec (2 ^ j) (2 ^ k)) as [[_ ->]|[_ ->]]; eauto. Qed.
Lemma union_zero al l : forall s fl s', lines al true l s fl s' -> Forall (fun f => f_off f = 0) fl.
Proof.
  induction l as [|d l IH]; intros s fl s' H; inversion H as [|? ? ? ? fa sa fb ? L1 L2]; subst; [constructor|]. apply Forall_app. split; [|eapply IH; exact L2].
  inversion L1; subst; constructor; try reflexivity; constructor.
Qed.
Definition max_size (fl : list sfield) : Z := max_of f_size fl.
Lemma union_extent al l : forall p t m fl p' t' m', lines al true l (p, t, m) fl (p', t', m') -> 0 <= t -> t' = Z.max t (max_size fl).
Proof.
  induction l as [|d l IH]; intros p t m fl p' t' m' H T; inversion H as [|? ? ? ? fa sa fb ? L1 L2]; subst; [unfold max_size; cbn [max_of]; lia|]. destruct sa as [[p2 t2] m2].
  pose proof (line_grow _ _ _ _ _ _ _ _ _ _ L1) as [G _]. apply IH in L2; [|lia]. unfold max_size in *. rewrite max_of_app. rewrite L2.
  pose proof (max_of_nonneg f_size fb). inversion L1; subst; cbn [max_of f_size]; lia.
Qed.

(** ** lookup *)
Lemma find_first {A} (p : A -> bool) l : match find p l with
  | Some x => exists a b, l = a ++ x :: b /\ p x = true /\ Forall (fun y => p y = false) a
  | None => Forall (fun y => p y = false) l end.
Proof.
  induction l as [|x l IH]; cbn [find]; [constructor|]. destruct (p x) eqn:E; [exists [], l; split; [reflexivity|]; split; [exact E|constructor]|].
  destruct (find p l) as [y|]; [|constructor; assumption]. destruct IH as (a & b & -> & P & F). exists (x :: a), b. split; [reflexivity|]. split; [exact P|]. constructor; assumption.
Qed.
Lemma match_false cs n e : matching cs n e = false <-> ~ same_name cs n (fst (fst e)).
Proof. unfold matching. rewrite <- name_match_iff. destruct (name_match cs n (fst (fst e))); split; congruence. Qed.
Lemma distinct_find cs l a e b : distinct cs (names l) -> l = a ++ e :: b -> forall n, same_name cs n (fst (fst e)) -> find (matching cs n) l = Some e.
Proof.
  intros D -> n SN. rewrite find_app.
  assert (N : find (matching cs n) a = None).
  { destruct (find (matching cs n) a) as [x|] eqn:E; [|reflexivity]. apply find_some in E as [IN M]. exfalso. rewrite names_app in D. apply distinct_app in D as (_ & _ & D).
    apply (D (fst (fst x)) (fst (fst e))); [unfold names; apply in_map_iff; eauto|left; reflexivity|]. apply name_match_iff in M. eapply same_name_trans; [apply same_name_sym; exact M|exact SN]. }
  rewrite N. cbn [find]. replace (matching cs n e) with true; [reflexivity|]. symmetry. apply name_match_iff. exact SN.
Qed.
