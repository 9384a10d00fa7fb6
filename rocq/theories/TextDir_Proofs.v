From Verif Require Import Base NumLit_Model NumLit_Spec NumLit_Proofs TextDir_Model TextDir_Spec TextDirRun_Spec.

(** ** CATSTR *)
Lemma cat_check_iff : forall n toks count, (length toks <= n)%nat -> 0 <= count < MAX_LINE_LEN ->
  cat_check count toks = true <-> exists l, (toks = items l \/ toks = items_comma l) /\ cat_copy toks = concat l /\ count + zlen (concat l) < MAX_LINE_LEN.
Proof.
  induction n as [|n IH]; intros toks count LN C.
  - destruct toks; [|cbn [length] in LN; lia]. split; [|reflexivity]. intros _. exists []. cbn [items cat_copy concat]. rewrite zlen_nil. split; [left; reflexivity|]. split; [reflexivity|lia].
  - destruct toks as [|t toks].
    { split; [|reflexivity]. intros _. exists []. cbn [items cat_copy concat]. rewrite zlen_nil. split; [left; reflexivity|]. split; [reflexivity|lia]. }
    split.
    + intros H. destruct t as [s| | | | |]; cbn [cat_check] in H; try discriminate.
      destruct (Z.geb_spec (count + zlen s) MAX_LINE_LEN) as [G|G]; [discriminate|].
      destruct toks as [|t toks].
      * exists [s]. cbn [items cat_copy concat]. rewrite app_nil_r. split; [left; reflexivity|]. split; [reflexivity|lia].
      * destruct t; try discriminate. cbn [length] in LN. pose proof (zlen_nonneg s). apply IH in H; [|lia|lia].
        destruct H as (l & T & CC & S1). exists (s :: l). cbn [cat_copy concat]. rewrite CC, zlen_app. split; [|split; [reflexivity|lia]].
        destruct T as [T|T]; rewrite T.
        -- destruct l as [|s2 l]; [right; reflexivity|left; reflexivity].
        -- right. reflexivity.
    + intros (l & T & CC & S1). destruct l as [|s l]; [destruct T as [T|T]; discriminate|]. cbn [concat] in S1. rewrite zlen_app in S1.
      pose proof (zlen_nonneg s). pose proof (zlen_nonneg (concat l)).
      assert (G : count + zlen s >=? MAX_LINE_LEN = false) by (destruct (Z.geb_spec (count + zlen s) MAX_LINE_LEN); [lia|reflexivity]).
      destruct T as [T|T].
      * destruct l as [|s2 l].
        -- cbn [items] in T. inversion T. subst. cbn [cat_check]. rewrite G. reflexivity.
        -- change (items (s :: s2 :: l)) with (Text s :: Comma :: items (s2 :: l)) in T. inversion T. subst. cbn [cat_check]. rewrite G.
           cbn [length] in LN. apply IH; [lia|lia|]. exists (s2 :: l). split; [left; reflexivity|]. split; [|lia].
           cbn [cat_copy] in CC. change (concat (s :: s2 :: l)) with (s ++ concat (s2 :: l)) in CC. apply app_inv_head in CC. exact CC.
      * cbn [items_comma] in T. inversion T. subst. cbn [cat_check]. rewrite G. cbn [length] in LN. apply IH; [lia|lia|]. exists l. split; [right; reflexivity|]. split; [|lia].
        cbn [cat_copy concat] in CC. apply app_inv_head in CC. exact CC.
Qed.
Lemma copy_items : forall l, cat_copy (items l) = concat l.
Proof.
  induction l as [|s l IH]; [reflexivity|]. destruct l as [|s2 l]; [cbn [items cat_copy concat]; rewrite app_nil_r; reflexivity|].
  change (items (s :: s2 :: l)) with (Text s :: Comma :: items (s2 :: l)). cbn [cat_copy]. rewrite IH. reflexivity.
Qed.
Lemma copy_items_comma : forall l, cat_copy (items_comma l) = concat l.
Proof. induction l as [|s l IH]; [reflexivity|]. cbn [items_comma cat_copy concat]. rewrite IH. reflexivity. Qed.
Lemma CatStrDir_iff k toks v : CatStrDir k toks = Ok v <->
  k <> OtherSym /\ exists l, (toks = items l \/ toks = items_comma l) /\ v = concat l /\ zlen v < MAX_LINE_LEN.
Proof.
  unfold CatStrDir. assert (C0 : 0 <= 0 < MAX_LINE_LEN) by (unfold MAX_LINE_LEN; lia).
  pose proof (cat_check_iff (length toks) toks 0 (le_n _) C0) as CI. split.
  - intros H. destruct (cat_check 0 toks); [|discriminate]. cbn [negb] in H. destruct (may_define k) eqn:M; [|discriminate]. cbn [negb] in H. inversion H as [H'].
    split; [intros ->; discriminate|]. destruct (proj1 CI eq_refl) as (l & T & CC & S1). exists l. split; [exact T|]. rewrite <- CC in S1. split; [congruence|lia].
  - intros (K & l & T & -> & S1). assert (CC : cat_copy toks = concat l) by (destruct T as [->| ->]; [apply copy_items|apply copy_items_comma]).
    assert (E : cat_check 0 toks = true) by (apply CI; exists l; split; [exact T|split; [exact CC|lia]]).
    rewrite E. cbn [negb]. destruct k; try congruence; cbn [may_define negb]; rewrite CC; reflexivity.
Qed.

(** ** SUBSTR *)
Lemma part_firstn s pos size : 1 <= pos <= zlen s -> 0 <= size -> pos + size - 1 <= zlen s ->
  part s pos (firstn (Z.to_nat size) (skipn (Z.to_nat (pos - 1)) s)) /\ zlen (firstn (Z.to_nat size) (skipn (Z.to_nat (pos - 1)) s)) = size.
Proof.
  intros P S0 PS. unfold zlen in *. split.
  - exists (firstn (Z.to_nat (pos - 1)) s), (skipn (Z.to_nat size) (skipn (Z.to_nat (pos - 1)) s)). rewrite !firstn_skipn. split; [reflexivity|]. unfold zlen. split.
    + rewrite firstn_length_le by lia. lia.
    + intros E. apply (f_equal (@length Z)) in E. rewrite skipn_length in E. cbn [length] in E. lia.
  - rewrite firstn_length_le; [lia|]. rewrite skipn_length. lia.
Qed.
Lemma part_unique s pos r : part s pos r -> 1 <= pos <= zlen s /\ pos + zlen r - 1 <= zlen s /\ r = firstn (Z.to_nat (zlen r)) (skipn (Z.to_nat (pos - 1)) s).
Proof.
  intros (a & b & -> & A & NE). rewrite !zlen_app. pose proof (zlen_nonneg a). pose proof (zlen_nonneg r). pose proof (zlen_nonneg b).
  assert (0 < zlen r + zlen b).
  { rewrite <- zlen_app. destruct (r ++ b) as [|c l]; [congruence|]. rewrite zlen_cons. pose proof (zlen_nonneg l). lia. }
  split; [lia|]. split; [lia|]. replace (Z.to_nat (pos - 1)) with (length a) by (unfold zlen in *; lia).
  rewrite skipn_app, skipn_all, Nat.sub_diag. cbn [app skipn]. unfold zlen. rewrite Nat2Z.id. rewrite firstn_app, firstn_all, Nat.sub_diag. cbn [firstn]. rewrite app_nil_r. reflexivity.
Qed.
Lemma swrap_int v : int32 v -> swrap 32 v = v.
Proof. intros H. apply swrap_small; [lia|]. exact H. Qed.
Lemma SubStrDir_sized k s pos size r : int32 pos -> int32 size -> pos + size < 2 ^ 31 ->
  SubStrDir k [Text s; Comma; Const pos; Comma; Const size] = Ok r <-> k <> OtherSym /\ part s pos r /\ zlen r = size.
Proof.
  intros IP IS NO. cbn [SubStrDir]. rewrite !swrap_int by assumption. cbv zeta. unfold sub_str. cbv zeta. cbn [bindr].
  destruct (Z.leb_spec pos 0) as [P0|P0].
  { split; [discriminate|]. intros (_ & PT & _). apply part_unique in PT. lia. }
  destruct (Z.ltb_spec size 0) as [S0|S0].
  { split; [discriminate|]. intros (_ & _ & L). pose proof (zlen_nonneg r). lia. }
  rewrite Z.gtb_ltb. destruct (Z.ltb_spec (zlen s) pos) as [PL|PL].
  { split; [discriminate|]. intros (_ & PT & _). apply part_unique in PT. lia. }
  rewrite Z.geb_leb. replace (2 ^ 31 <=? pos + size) with false by (symmetry; apply Z.leb_gt; exact NO).
  rewrite Z.gtb_ltb. destruct (Z.ltb_spec (zlen s) (pos + size - 1)) as [SL|SL]; cbn [bindr].
  { split; [discriminate|]. intros (_ & PT & L). apply part_unique in PT. lia. }
  replace (size =? -1) with false by lia. destruct (part_firstn s pos size ltac:(lia) S0 SL) as [PF ZF]. split.
  - intros H. destruct k; cbn [may_define negb] in H; inversion H as [H']; (split; [discriminate|]); rewrite H' in *; auto.
  - intros (K & PT & L). apply part_unique in PT as (_ & _ & RE). rewrite L in RE. rewrite <- RE. destruct k; try congruence; reflexivity.
Qed.
Lemma SubStrDir_rest k s pos r : int32 pos -> zlen s < 2 ^ 31 ->
  SubStrDir k [Text s; Comma; Const pos] = Ok r <-> k <> OtherSym /\ part s pos r /\ zlen r = zlen s - pos + 1.
Proof.
  intros IP ZS. cbn [SubStrDir]. rewrite !swrap_int by assumption. cbv zeta. unfold sub_str. cbv zeta. cbn [bindr].
  destruct (Z.leb_spec pos 0) as [P0|P0].
  { split; [discriminate|]. intros (_ & PT & _). apply part_unique in PT. lia. }
  rewrite Z.gtb_ltb. destruct (Z.ltb_spec (zlen s) pos) as [PL|PL].
  { split; [discriminate|]. intros (_ & PT & _). apply part_unique in PT. lia. }
  change (-1 =? -1) with true. cbn [bindr]. destruct (part_firstn s pos (zlen s - pos + 1) ltac:(lia) ltac:(lia) ltac:(lia)) as [PF ZF]. split.
  - intros H. destruct k; cbn [may_define negb] in H; inversion H as [H']; (split; [discriminate|]); rewrite H' in *; auto.
  - intros (K & PT & L). apply part_unique in PT as (_ & _ & RE). rewrite L in RE. rewrite <- RE. destruct k; try congruence; reflexivity.
Qed.
(** other shapes of the arguments are errors *)
Lemma SubStrDir_shape k toks r : SubStrDir k toks = Ok r ->
  (exists s p, toks = [Text s; Comma; Const p]) \/ (exists s p n, toks = [Text s; Comma; Const p; Comma; Const n]).
Proof.
  unfold SubStrDir. intros H.
  destruct toks as [|[s| | | | |] [|[| | | | |] [|[|v| | | |] rest]]]; try discriminate.
  cbv zeta in H. destruct (swrap 32 v <=? 0); [discriminate|].
  destruct rest as [|[| | | | |] [|[|n| | | |] [|? ?]]]; try discriminate; eauto 10.
Qed.

Lemma SubStrFunc_sized s pos size r : int32 pos -> int32 size -> zlen s < 2 ^ 31 ->
  SubStrFunc s (Some pos) (Some (Some size)) = Ok r <-> part s (if pos =? 0 then 1 else pos) r /\ zlen r = size.
Proof.
  intros IP IS ZS. unfold SubStrFunc. rewrite !swrap_int by assumption. cbv zeta. set (p := if pos =? 0 then 1 else pos).
  destruct (Z.ltb_spec pos 0) as [P0|P0].
  { split; [discriminate|]. intros (PT & _). apply part_unique in PT. unfold p in PT. replace (pos =? 0) with false in PT by lia. lia. }
  assert (P1 : 1 <= p) by (unfold p; destruct (Z.eqb_spec pos 0); lia).
  rewrite Z.gtb_ltb. destruct (Z.ltb_spec (zlen s) p) as [PL|PL].
  { split; [discriminate|]. intros (PT & _). apply part_unique in PT. lia. }
  destruct (Z.ltb_spec size 0) as [S0|S0]; cbn [bindr].
  { split; [discriminate|]. intros (_ & L). pose proof (zlen_nonneg r). lia. }
  rewrite Z.gtb_ltb. destruct (Z.ltb_spec (zlen s - p + 1) size) as [SL|SL]; cbn [bindr].
  { split; [discriminate|]. intros (PT & L). apply part_unique in PT. lia. }
  destruct (part_firstn s p size ltac:(lia) S0 ltac:(lia)) as [PF ZF]. split.
  - intros H. inversion H as [H']. rewrite H' in *. auto.
  - intros (PT & L). apply part_unique in PT as (_ & _ & RE). rewrite L in RE. rewrite <- RE. reflexivity.
Qed.
Lemma SubStrFunc_rest s pos r : int32 pos -> zlen s < 2 ^ 31 ->
  SubStrFunc s (Some pos) None = Ok r <-> part s (if pos =? 0 then 1 else pos) r /\ zlen r = zlen s - (if pos =? 0 then 1 else pos) + 1.
Proof.
  intros IP ZS. unfold SubStrFunc. rewrite !swrap_int by assumption. cbv zeta. set (p := if pos =? 0 then 1 else pos).
  destruct (Z.ltb_spec pos 0) as [P0|P0].
  { split; [discriminate|]. intros (PT & _). apply part_unique in PT. unfold p in PT. replace (pos =? 0) with false in PT by lia. lia. }
  assert (P1 : 1 <= p) by (unfold p; destruct (Z.eqb_spec pos 0); lia).
  rewrite Z.gtb_ltb. destruct (Z.ltb_spec (zlen s) p) as [PL|PL].
  { split; [discriminate|]. intros (PT & _). apply part_unique in PT. lia. }
  cbn [bindr]. destruct (part_firstn s p (zlen s - p + 1) ltac:(lia) ltac:(lia) ltac:(lia)) as [PF ZF]. split.
  - intros H. inversion H as [H']. rewrite H' in *. auto.
  - intros (PT & L). apply part_unique in PT as (_ & _ & RE). rewrite L in RE. rewrite <- RE. reflexivity.
Qed.

(** ** INSTR *)
Lemma is_prefix_iff : forall a b, is_prefix a b = true <-> exists r, b = a ++ r.
Proof.
  induction a as [|x a IH]; intros b; cbn [is_prefix].
  - split; [intros _; exists b; reflexivity|reflexivity].
  - destruct b as [|y b]; [split; [discriminate|intros (r & E); discriminate]|]. rewrite Bool.andb_true_iff, IH. split.
    + intros [E (r & ->)]. exists r. cbn [app]. f_equal. lia.
    + intros (r & E). cbn [app] in E. inversion E. split; [lia|]. exists r. reflexivity.
Qed.
Definition at_off (s q : list Z) (n : Z) : Prop := exists a b, s = a ++ q ++ b /\ zlen a = n.
Lemma strstr_spec : forall s q, match strstr s q with
  | Some n => at_off s q n /\ forall m, at_off s q m -> n <= m
  | None => forall m, ~ at_off s q m
  end.
Proof.
  induction s as [|c s IH]; intros q.
  - cbn [strstr]. destruct (is_prefix q []) eqn:P.
    + apply is_prefix_iff in P as (r & E). split; [exists [], r; split; [exact E|apply zlen_nil]|]. intros m (a & b & _ & A). pose proof (zlen_nonneg a). lia.
    + intros m (a & b & E & A). destruct a; [|discriminate]. assert (is_prefix q [] = true) by (apply is_prefix_iff; exists b; exact E). congruence.
  - cbn [strstr]. destruct (is_prefix q (c :: s)) eqn:P.
    + apply is_prefix_iff in P as (r & E). split; [exists [], r; split; [exact E|apply zlen_nil]|]. intros m (a & b & _ & A). pose proof (zlen_nonneg a). lia.
    + assert (NZ : forall m, at_off (c :: s) q m -> at_off s q (m - 1)).
      { intros m (a & b & E & A). destruct a as [|x a].
        - assert (is_prefix q (c :: s) = true) by (apply is_prefix_iff; exists b; exact E). congruence.
        - cbn [app] in E. inversion E. exists a, b. split; [reflexivity|]. rewrite zlen_cons in A. lia. }
      specialize (IH q). destruct (strstr s q) as [n|].
      * destruct IH as [(a & b & E & A) MIN]. split; [exists (c :: a), b; split; [cbn [app]; congruence|rewrite zlen_cons; lia]|].
        intros m M. apply NZ in M. apply MIN in M. lia.
      * intros m M. apply NZ in M. apply (IH _ M).
Qed.
Lemma at_off_skip s q start n : 1 <= start <= zlen s + 1 -> at_off (skipn (Z.to_nat (start - 1)) s) q n <-> occurs s q (start + n) /\ 0 <= n.
Proof.
  intros ST. split.
  - intros (a & b & E & A). split; [|pose proof (zlen_nonneg a); lia]. exists (firstn (Z.to_nat (start - 1)) s ++ a), b.
    rewrite <- app_assoc, <- E, firstn_skipn. split; [reflexivity|]. rewrite zlen_app, A. unfold zlen in *. rewrite firstn_length_le by lia. lia.
  - intros ((a & b & E & A) & N). exists (skipn (Z.to_nat (start - 1)) a), b. split.
    + rewrite E. rewrite skipn_app. replace (Z.to_nat (start - 1) - length a)%nat with 0%nat by (unfold zlen in A; lia). reflexivity.
    + unfold zlen in *. rewrite skipn_length. lia.
Qed.
Lemma search_spec s q start : 1 <= start <= zlen s ->
  first_from s q start (match strstr (skipn (Z.to_nat (start - 1)) s) q with Some n => start - 1 + n + 1 | None => 0 end).
Proof.
  intros ST. pose proof (strstr_spec (skipn (Z.to_nat (start - 1)) s) q) as SP. destruct (strstr _ q) as [n|].
  - left. destruct SP as [A MIN]. apply at_off_skip in A as [O N]; [|lia]. replace (start - 1 + n + 1) with (start + n) by lia. split; [exact O|]. split; [lia|].
    intros p PS O'. assert (H : at_off (skipn (Z.to_nat (start - 1)) s) q (p - start)) by (apply at_off_skip; [lia|]; replace (start + (p - start)) with p by lia; split; [exact O'|lia]).
    apply MIN in H. lia.
  - right. split; [reflexivity|]. intros p PS O'. apply (SP (p - start)). apply at_off_skip; [lia|]. replace (start + (p - start)) with p by lia. split; [exact O'|lia].
Qed.
Lemma first_from_fun s q start r r' : 1 <= start -> first_from s q start r -> first_from s q start r' -> r = r'.
Proof.
  intros ST [(O & L & M)|(-> & N)] [(O' & L' & M')|(-> & N')]; try reflexivity.
  - specialize (M r' L' O'). specialize (M' r L O). lia.
  - exfalso. apply (N' r L O).
  - exfalso. apply (N r' L' O').
Qed.
Lemma long_needle s q p : zlen s < zlen q -> ~ occurs s q p.
Proof. intros L (a & b & -> & _). rewrite !zlen_app in L. pose proof (zlen_nonneg a). pose proof (zlen_nonneg b). lia. Qed.
Lemma in_str_iff start s q r : q <> [] -> in_str start s [Comma; Text q] = Ok r <->
  start <= zlen s /\ (if start <=? 0 then r = 0 else first_from s q start r).
Proof.
  intros NE. unfold in_str. cbv zeta. rewrite Z.gtb_ltb. destruct (Z.ltb_spec (zlen s) start) as [SL|SL].
  { split; [discriminate|]. lia. }
  assert (J : (zlen q =? 0) = false) by (destruct q; [congruence|]; rewrite zlen_cons; pose proof (zlen_nonneg q); lia). rewrite J. cbn [negb]. rewrite Bool.andb_true_r.
  destruct (Z.leb_spec start 0) as [S0|S0].
  { rewrite Z.gtb_ltb. replace (0 <? start) with false by lia. cbn [andb]. split; [intros H; inversion H; auto|intros [_ ->]; reflexivity]. }
  rewrite Z.gtb_ltb. replace (0 <? start) with true by lia. cbn [andb]. rewrite Z.geb_leb. destruct (Z.leb_spec (zlen q) (zlen s)) as [LQ|LQ].
  - pose proof (search_spec s q start ltac:(lia)) as F. split.
    + intros H. split; [lia|]. destruct (strstr _ q) as [n|]; injection H as H'; subst r; exact F.
    + intros [_ F']. assert (ST : 1 <= start) by lia. pose proof (first_from_fun _ _ _ _ _ ST F F') as E. destruct (strstr _ q) as [n|]; rewrite <- E; reflexivity.
  - split.
    + intros H. inversion H. split; [lia|]. right. split; [reflexivity|]. intros p _. apply long_needle. exact LQ.
    + intros [_ [(O & _)|(-> & _)]]; [|reflexivity]. exfalso. apply (long_needle _ _ _ LQ O).
Qed.
Lemma in_str_empty start s r : in_str start s [Comma; Text []] = Ok r <-> start <= zlen s /\ r = 0.
Proof.
  unfold in_str. cbv zeta. rewrite Z.gtb_ltb. destruct (Z.ltb_spec (zlen s) start) as [SL|SL]; [split; [discriminate|lia]|].
  change (zlen (@nil Z)) with 0. change (0 =? 0) with true. cbn [negb]. rewrite Bool.andb_false_r. split; [intros H; inversion H; auto|intros [_ ->]; reflexivity].
Qed.
Lemma InStrDir_shape toks r : InStrDir toks = Ok r ->
  exists s q, toks = [Text s; Comma; Text q] \/ exists v, toks = [Const v; Comma; Text s; Comma; Text q].
Proof.
  unfold InStrDir, in_str. intros H.
  destruct toks as [|[s|v| | | |] rest]; try discriminate.
  - cbv zeta in H. destruct (1 >? zlen s); [discriminate|]. destruct rest as [|[| | | | |] [|[q| | | | |] [|? ?]]]; try discriminate. eauto.
  - destruct rest as [|[| | | | |] [|[s| | | | |] rest]]; try discriminate. cbv zeta in H. destruct (swrap 32 v >? zlen s); [discriminate|].
    destruct rest as [|[| | | | |] [|[q| | | | |] [|? ?]]]; try discriminate. eauto.
Qed.
(** the macro function *)
Lemma zero_reads radix rest : 2 <= radix <= 16 -> delim rest -> Forall is_byte rest -> reads radix ([48] ++ rest) 0 rest.
Proof. intros R D B. destruct (toa_reads radix 0 rest R ltac:(lia) D B) as (t & E & H). unfold myltoa, mytoa in E. cbn [negb andb Z.eqb] in E. inversion E. subst t. exact H. Qed.
Lemma occurs_pos s q p : occurs s q p -> 1 <= p /\ p + zlen q - 1 <= zlen s.
Proof. intros (a & b & -> & A). rewrite !zlen_app. pose proof (zlen_nonneg a). pose proof (zlen_nonneg b). lia. Qed.
Lemma InStrFunc_ok radix pos s q rest p : 2 <= radix <= 16 -> delim rest -> Forall is_byte rest -> zlen s < 2 ^ 31 ->
  (forall v, pos = Some (Some v) -> int32 v) -> start_of pos = Some p -> 1 <= p <= zlen s -> q <> [] ->
  exists t r, InStrFunc radix pos s q = Ok t /\ reads radix (t ++ rest) r rest /\ first_from s q p r.
Proof.
  intros R D B ZS IV SO P NE. unfold InStrFunc.
  match goal with |- context [bindr ?X _] => assert (E : X = Ok p) end.
  { destruct pos as [[v|]|]; cbn [start_of] in SO; [|discriminate|congruence]. rewrite swrap_int by (apply IV; reflexivity). cbv zeta. inversion SO. destruct (Z.eqb_spec v 0); f_equal; lia. }
  rewrite E. cbn [bindr]. change (2 ^ 31) with 2147483648 in ZS. rewrite wrap_small by (change (2 ^ 64) with 18446744073709551616; lia).
  rewrite Z.gtb_ltb. replace (zlen s <? p) with false by lia. pose proof (search_spec s q p P) as F.
  destruct q as [|c q]; [congruence|]. destruct (strstr _ (c :: q)) as [n|].
  - assert (RB : 0 <= p - 1 + n + 1 < 2147483648).
    { destruct F as [(O & _)|(Z0 & _)]; [|lia]. apply occurs_pos in O. rewrite zlen_cons in O. pose proof (zlen_nonneg q). lia. }
    rewrite wrap_small by (change (2 ^ 32) with 4294967296; lia).
    destruct (toa_reads radix (p - 1 + n + 1) rest R ltac:(change (2 ^ 32) with 4294967296; lia) D B) as (t & T1 & T2).
    exists t, (p - 1 + n + 1). auto.
  - exists [48], 0. split; [reflexivity|]. split; [apply zero_reads; assumption|exact F].
Qed.
Lemma InStrFunc_bad radix pos s q : zlen s < 2 ^ 31 ->
  (forall v, pos = Some (Some v) -> int32 v) -> (match start_of pos with Some p => p < 1 \/ p > zlen s | None => True end) -> InStrFunc radix pos s q = Err.
Proof.
  intros ZS IV SO. unfold InStrFunc. destruct pos as [[v|]|]; cbn [start_of] in SO; [|reflexivity|].
  - rewrite swrap_int by (apply IV; reflexivity). cbv zeta. cbn [bindr]. specialize (IV v eq_refl). unfold int32 in IV.
    change (- 2 ^ 31) with (-2147483648) in IV. change (2 ^ 31) with 2147483648 in *. pose proof (zlen_nonneg s).
    destruct (Z.eqb_spec v 0) as [->|NZ].
    + change (0 + 1) with 1. rewrite wrap_small by (change (2 ^ 64) with 18446744073709551616; lia). rewrite Z.gtb_ltb. replace (zlen s <? 1) with true by lia. reflexivity.
    + assert (W : wrap 64 v > zlen s).
      { unfold wrap. destruct (Z_lt_le_dec v 0).
        - change (2 ^ 64) with 18446744073709551616. rewrite <- (Z_mod_plus_full v 1). rewrite Z.mod_small by lia. lia.
        - change (2 ^ 64) with 18446744073709551616. rewrite Z.mod_small by lia. lia. }
      rewrite Z.gtb_ltb. replace (zlen s <? wrap 64 v) with true by lia. reflexivity.
  - cbn [bindr]. change (wrap 64 1) with 1. rewrite Z.gtb_ltb. pose proof (zlen_nonneg s). replace (zlen s <? 1) with true by lia. reflexivity.
Qed.
Lemma InStrFunc_empty radix pos s rest p : 2 <= radix <= 16 -> delim rest -> Forall is_byte rest -> zlen s < 2 ^ 31 ->
  (forall v, pos = Some (Some v) -> int32 v) -> start_of pos = Some p -> 1 <= p <= zlen s ->
  exists t, InStrFunc radix pos s [] = Ok t /\ reads radix (t ++ rest) 0 rest.
Proof.
  intros R D B ZS IV SO P. unfold InStrFunc.
  match goal with |- context [bindr ?X _] => assert (E : X = Ok p) end.
  { destruct pos as [[v|]|]; cbn [start_of] in SO; [|discriminate|congruence]. rewrite swrap_int by (apply IV; reflexivity). cbv zeta. inversion SO. destruct (Z.eqb_spec v 0); f_equal; lia. }
  rewrite E. cbn [bindr]. change (2 ^ 31) with 2147483648 in ZS. rewrite wrap_small by (change (2 ^ 64) with 18446744073709551616; lia).
  rewrite Z.gtb_ltb. replace (zlen s <? p) with false by lia. exists [48]. split; [reflexivity|]. apply zero_reads; assumption.
Qed.
