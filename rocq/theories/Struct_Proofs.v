From Verif Require Import Base Struct_Model Struct_Spec StructRun_Spec.

(** ** rounding *)
Lemma land_le y m : 0 <= m -> Z.land y m <= m.
Proof.
  intros M. assert (E : m = Z.land y m + Z.ldiff m y).
  { rewrite Z.add_nocarry_lxor.
    - apply Z.bits_inj'. intros i I. rewrite Z.lxor_spec, Z.land_spec, Z.ldiff_spec. destruct (Z.testbit y i), (Z.testbit m i); reflexivity.
    - apply Z.bits_inj'. intros i I. rewrite !Z.land_spec, Z.ldiff_spec, Z.bits_0. destruct (Z.testbit y i), (Z.testbit m i); reflexivity. }
  assert (0 <= Z.ldiff m y) by (apply Z.ldiff_nonneg; left; exact M). lia.
Qed.
Lemma land_neg y a : 1 <= a -> 0 <= y -> y - (a - 1) <= Z.land y (- a) <= y /\ (forall k, 0 <= k -> a = 2 ^ k -> (a | Z.land y (- a))).
Proof.
  intros A Y. assert (E : Z.land y (- a) = y - Z.land y (a - 1)).
  { replace (- a) with (Z.lnot (a - 1)) by (unfold Z.lnot; lia).
    replace y with (Z.land y (a - 1) + Z.ldiff y (a - 1)) at 2.
    - rewrite <- Z.ldiff_land. lia.
    - rewrite Z.add_nocarry_lxor.
      + apply Z.bits_inj'. intros i I. rewrite Z.lxor_spec, Z.land_spec, Z.ldiff_spec. destruct (Z.testbit y i), (Z.testbit (a - 1) i); reflexivity.
      + apply Z.bits_inj'. intros i I. rewrite !Z.land_spec, Z.ldiff_spec, Z.bits_0. destruct (Z.testbit y i), (Z.testbit (a - 1) i); reflexivity. }
  pose proof (land_le y (a - 1) ltac:(lia)). assert (0 <= Z.land y (a - 1)) by (apply Z.land_nonneg; left; exact Y). split; [lia|].
  intros k K P. rewrite E. replace (a - 1) with (Z.ones k) by (rewrite Z.ones_equiv, P; lia). rewrite Z.land_ones by exact K. rewrite <- P.
  exists (y / a). pose proof (Z.div_mod y a ltac:(lia)). lia.
Qed.
Lemma align_int_place x a : 0 <= x -> 1 <= a -> x + (a - 1) < 2 ^ 31 -> exists r, align_int x a = Ok r /\ place a x r.
Proof.
  intros X A B. unfold align_int. rewrite Z.geb_leb. replace (2 ^ 31 <=? x + (a - 1)) with false by (symmetry; apply Z.leb_gt; exact B).
  eexists. split; [reflexivity|]. destruct (land_neg (x + (a - 1)) a A ltac:(lia)) as [R D]. split; [lia|exact D].
Qed.
Lemma land_wrap y a : 0 <= y < 2 ^ 32 -> Z.land (u32 y) (u32 (- a)) = Z.land y (- a).
Proof.
  intros Y. unfold u32, wrap. rewrite (Z.mod_small y) by exact Y. rewrite <- Z.land_ones by lia.
  rewrite Z.land_comm, <- Z.land_assoc, Z.land_comm. rewrite (Z.land_comm (Z.ones 32)). rewrite Z.land_ones by lia. rewrite Z.mod_small by exact Y. apply Z.land_comm || reflexivity.
Qed.
Lemma u32_small v : 0 <= v < 2 ^ 32 -> u32 v = v.
Proof. apply wrap_small. Qed.
Lemma s32_small v : - 2 ^ 31 <= v < 2 ^ 31 -> s32 v = v.
Proof. intros H. apply swrap_small; [lia|exact H]. Qed.
Lemma place_one p : place 1 p p.
Proof. split; [lia|]. intros k _ _. exists p. lia. Qed.
Definition pow2 (a : Z) : Prop := exists k, 0 <= k /\ a = 2 ^ k.
Lemma pow2_pos' a : pow2 a -> 1 <= a.
Proof. intros (k & K & ->). pose proof (pow2_pos k K). lia. Qed.

Lemma field_offset_place c size : 0 <= offset c -> 1 <= alignment c <= 64 -> 0 <= size -> offset c + 64 < 2 ^ 31 ->
  exists off, field_offset c size = Ok off /\ place (eff (alignment c) size) (offset c) off /\ (alignment c = 1 -> off = offset c) /\ (offset c = 0 -> off = 0).
Proof.
  intros O A S1 B. unfold field_offset, eff. change (2 ^ 31) with 2147483648 in *.
  assert (Z0 : forall a off, place a (offset c) off -> 1 <= a -> offset c = 0 -> Z.land (a - 1) (- a) = off -> off = 0).
  { intros a off P A1 O0 <-. destruct (Z.eq_dec (Z.land (a - 1) (- a)) 0) as [E|NE]; [exact E|]. exfalso. apply NE.
    replace (- a) with (Z.lnot (a - 1)) by (unfold Z.lnot; lia). apply Z.bits_inj'. intros i I. rewrite Z.land_spec, Z.lnot_spec, Z.bits_0 by exact I. destruct (Z.testbit (a - 1) i); reflexivity. }
  rewrite Z.gtb_ltb. destruct (Z.ltb_spec 1 (alignment c)) as [A1|A1].
  - destruct (Z.ltb_spec (alignment c) size) as [AS|AS].
    + destruct (align_int_place (offset c) (alignment c) O ltac:(lia) ltac:(change (2 ^ 31) with 2147483648; lia)) as (r & E & P). exists r. rewrite E. split; [reflexivity|].
      replace (Z.min (alignment c) (Z.max size 1)) with (alignment c) by lia. split; [exact P|]. split; [lia|]. intros O0. apply (Z0 (alignment c) r P ltac:(lia) O0).
      unfold align_int in E. destruct (_ >=? _); [discriminate|]. inversion E. rewrite O0. rewrite Z.add_0_l. reflexivity.
    + destruct (Z.eqb_spec size 0) as [->|NZ]; cbn [negb].
      * exists (offset c). replace (Z.min (alignment c) (Z.max 0 1)) with 1 by lia. split; [reflexivity|]. split; [apply place_one|]. auto.
      * replace (Z.min (alignment c) (Z.max size 1)) with size by lia.
        rewrite land_wrap by (change (2 ^ 32) with 4294967296; lia). destruct (land_neg (offset c + (size - 1)) size ltac:(lia) ltac:(lia)) as [R D].
        exists (Z.land (offset c + (size - 1)) (- size)). rewrite s32_small by (change (2 ^ 31) with 2147483648; lia). split; [reflexivity|].
        assert (P : place size (offset c) (Z.land (offset c + (size - 1)) (- size))) by (split; [lia|exact D]). split; [exact P|]. split; [lia|].
        intros O0. apply (Z0 size _ P ltac:(lia) O0). rewrite O0, Z.add_0_l. reflexivity.
  - exists (offset c). replace (Z.min (alignment c) (Z.max size 1)) with 1 by lia. split; [reflexivity|]. split; [apply place_one|]. auto.
Qed.

(** ** the state invariant; [w] bounds the bytes used so far *)
Definition inv (c : cur) (w : Z) : Prop :=
  1 <= alignment c <= 64 /\ 0 <= offset c <= w /\ 0 <= total_size c <= w /\ 0 <= max_mbr_size c /\ (is_union c = true -> offset c = 0) /\ Forall (fun f => 0 <= f_off f) (head c).
Definition st (c : cur) : Z * Z * Z := (offset c, total_size c, max_mbr_size c).

Ltac prj := cbn [is_union alignment offset total_size max_mbr_size head OrgInside set_offset set_total set_max add_field set_org] in *.
Lemma raise_total_eq c o : 0 <= o < 2 ^ 32 -> raise_total c o = set_total c (Z.max (total_size c) o).
Proof.
  intros O. unfold raise_total. rewrite (u32_small o O). rewrite Z.gtb_ltb. destruct (Z.ltb_spec (total_size c) o) as [L|L].
  - replace (Z.max (total_size c) o) with o by lia. reflexivity.
  - replace (Z.max (total_size c) o) with (total_size c) by lia. destruct c; reflexivity.
Qed.

(** the effect of a field *)
Lemma create_ok cs c name vt size tsize w : inv c w -> 0 <= vt_max size vt -> 0 <= tsize -> w + tsize + 64 < 2 ^ 31 ->
  match CreateStructField cs c name vt size tsize with
  | UB => False
  | Err => True
  | Ok c' => exists off, let f := SF name off tsize (vt_fields vt) in let c'' := UpdateStructSize c' tsize in
      (if is_union c then off = 0 /\ st c'' = (offset c, Z.max (total_size c) tsize, Z.max (max_mbr_size c) (vt_max size vt))
       else place (eff (alignment c) (vt_max size vt)) (offset c) off /\ st c'' = (off + tsize, Z.max (total_size c) (off + tsize), Z.max (max_mbr_size c) (vt_max size vt)))
      /\ head c' = head c ++ [f] /\ max_mbr_size c' = Z.max (max_mbr_size c) (vt_max size vt) /\ is_union c'' = is_union c /\ alignment c'' = alignment c /\ OrgInside c'' = OrgInside c /\ head c'' = head c ++ [f] /\ inv c'' (w + tsize + 64)
  end.
Proof.
  intros (A & O & T & M & U & F) VM TS W. unfold CreateStructField.
  set (err := match name with [] => _ | _ :: _ => _ end). destruct err; [exact I|].
  fold (vt_max size vt). set (m := vt_max size vt) in *. clearbody m. change (2 ^ 31) with 2147483648 in W.
  destruct (field_offset_place c m (proj1 O) A VM ltac:(change (2 ^ 31) with 2147483648; lia)) as (off & E & P & P1 & P0).
  rewrite E. cbn [bindr]. fold (vt_fields vt). exists off. cbv zeta.
  assert (OB : offset c <= off <= offset c + 63) by (destruct P as [P _]; unfold eff in P; lia).
  assert (MX : forall x, (if m >? max_mbr_size x then set_max x m else x) = set_max x (Z.max (max_mbr_size x) m)).
  { intros x. rewrite Z.gtb_ltb. destruct (Z.ltb_spec (max_mbr_size x) m) as [L|L]; [replace (Z.max (max_mbr_size x) m) with m by lia; reflexivity|].
    replace (Z.max (max_mbr_size x) m) with (max_mbr_size x) by lia. destruct x; reflexivity. }
  rewrite MX. destruct (is_union c) eqn:IU.
  - rewrite Bool.andb_false_r. cbn [negb]. rewrite Bool.andb_false_r || idtac. specialize (P0 (U eq_refl)). subst off.
    unfold UpdateStructSize. prj. rewrite IU.
    rewrite Z.gtb_ltb. assert (TX : (if total_size c <? tsize then tsize else total_size c) = Z.max (total_size c) tsize) by (destruct (Z.ltb_spec (total_size c) tsize); lia).
    destruct (Z.ltb_spec (total_size c) tsize) as [L|L]; prj; unfold st; prj; rewrite ?IU;
      (split; [split; [reflexivity|f_equal; f_equal; lia]|]); (split; [reflexivity|]); (split; [reflexivity|]); (split; [reflexivity|]); (split; [reflexivity|]); (split; [reflexivity|]); (split; [reflexivity|]);
      (unfold inv; prj; split; [exact A|]; split; [lia|]; split; [lia|]; split; [lia|]; split; [auto|]; apply Forall_app; split; [exact F|]; constructor; [cbn [f_off]; lia|constructor]).
  - rewrite Bool.andb_true_r.
    assert (C1 : (if alignment c >? 1 then raise_total (set_offset c off) off else c) = set_total (set_offset c off) (if alignment c >? 1 then Z.max (total_size c) off else total_size c)).
    { rewrite Z.gtb_ltb. destruct (Z.ltb_spec 1 (alignment c)) as [L|L].
      - rewrite raise_total_eq by (change (2 ^ 32) with 4294967296; lia). reflexivity.
      - rewrite (P1 ltac:(lia)). destruct c; reflexivity. }
    cbn [negb]. rewrite Bool.andb_true_r || idtac. rewrite C1. set (t1 := if alignment c >? 1 then _ else _).
    assert (TB : total_size c <= t1 <= Z.max (total_size c) off) by (unfold t1; destruct (alignment c >? 1); lia). clearbody t1.
    unfold UpdateStructSize. prj. rewrite IU. rewrite s32_small by (change (2 ^ 31) with 2147483648; lia). rewrite s32_small by (change (2 ^ 31) with 2147483648; lia).
    rewrite u32_small by (change (2 ^ 32) with 4294967296; lia). rewrite Z.gtb_ltb.
    destruct (Z.ltb_spec t1 (off + tsize)) as [L|L]; prj; unfold st; prj; rewrite ?IU;
      (split; [split; [exact P|f_equal; f_equal; lia]|]); (split; [reflexivity|]); (split; [reflexivity|]); (split; [reflexivity|]); (split; [reflexivity|]); (split; [reflexivity|]); (split; [reflexivity|]);
      (unfold inv; prj; split; [exact A|]; split; [lia|]; split; [lia|]; split; [lia|]; split; [congruence|]; apply Forall_app; split; [exact F|]; constructor; [cbn [f_off]; lia|constructor]).
Qed.

(** ** finishing *)
Lemma min_offset_zero fl : Forall (fun f => 0 <= f_off f) fl -> min_offset fl = 0.
Proof.
  unfold min_offset. intros F. induction F as [|f fl H F IH]; [reflexivity|]. cbn [fold_left].
  replace (f_off f <? 0) with false by lia. exact IH.
Qed.
Lemma finish_ok c w : inv c w -> w + 64 < 2 ^ 31 ->
  place (eff (alignment c) (max_mbr_size c)) (total_size c) (total_size (finish c)) /\ head (finish c) = head c /\ max_mbr_size (finish c) = max_mbr_size c /\ 0 <= total_size (finish c) <= w + 64.
Proof.
  intros (A & O & T & M & U & F) W. change (2 ^ 31) with 2147483648 in W. unfold finish.
  set (c1 := if OrgInside c then _ else c).
  assert (E : total_size c1 = total_size c /\ alignment c1 = alignment c /\ max_mbr_size c1 = max_mbr_size c /\ head c1 = head c).
  { unfold c1. destruct (OrgInside c); prj; [|auto]. rewrite (min_offset_zero _ F), Z.sub_0_r, u32_small by (change (2 ^ 32) with 4294967296; lia). auto. }
  destruct E as (E1 & E2 & E3 & E4). clearbody c1. rewrite E2. rewrite Z.gtb_ltb. destruct (Z.ltb_spec 1 (alignment c)) as [L|L].
  - prj. rewrite E1, E3, E4. set (size := if max_mbr_size c =? 0 then max_mbr_size c + 1 else max_mbr_size c).
    set (s2 := if size >? alignment c then alignment c else size).
    assert (S2 : s2 = eff (alignment c) (max_mbr_size c)).
    { unfold s2, size, eff. rewrite Z.gtb_ltb. destruct (Z.eqb_spec (max_mbr_size c) 0) as [Z0|Z0]; [rewrite Z0|]; destruct (Z.ltb_spec (alignment c) (max_mbr_size c)), (Z.ltb_spec (alignment c) (0 + 1)); lia. }
    assert (SB : 1 <= s2 <= 64) by (rewrite S2; unfold eff; lia). rewrite <- S2. clearbody s2.
    replace (total_size c + s2 - 1) with (total_size c + (s2 - 1)) by lia.
    rewrite land_wrap by (change (2 ^ 32) with 4294967296; lia). destruct (land_neg (total_size c + (s2 - 1)) s2 ltac:(lia) ltac:(lia)) as [R D].
    split; [split; [lia|exact D]|]. split; [reflexivity|]. split; [reflexivity|lia].
  - rewrite E1, E3, E4. replace (eff (alignment c) (max_mbr_size c)) with 1 by (unfold eff; lia). split; [apply place_one|]. split; [reflexivity|]. split; [reflexivity|lia].
Qed.

(** ** induction over definitions *)
Section def_induction.
  Variable P : def -> Prop.
  Hypothesis HF : forall n sz ts vt, P (DField n sz ts vt).
  Hypothesis HA : forall v, P (DAlign v).
  Hypothesis HO : forall o, P (DOrg o).
  Hypothesis HS : forall u n body, Forall P body -> P (DStruct u n body).
  Fixpoint def_ind' (d : def) : P d :=
    match d with
    | DField n sz ts vt => HF n sz ts vt
    | DAlign v => HA v
    | DOrg o => HO o
    | DStruct u n body => HS u n body ((fix go l : Forall P l := match l with [] => Forall_nil P | x :: l => Forall_cons x (def_ind' x) (go l) end) body)
    end.
End def_induction.

Lemma weight_nonneg : forall d, fine d -> 0 <= weight d.
Proof.
  apply (def_ind' (fun d => fine d -> 0 <= weight d)); cbn [fine weight].
  - intros n sz ts vt (A & B & _). lia.
  - intros v (k & K & ->). pose proof (pow2_pos k K). lia.
  - auto.
  - intros u n body IH F. enough (0 <= sum_of weight body) by lia. induction IH as [|d body H IH IHl]; cbn [sum_of all_of] in *; [lia|]. destruct F as [F1 F2]. specialize (H F1). specialize (IHl F2). lia.
Qed.
Lemma weights_nonneg body : all_of fine body -> 0 <= sum_of weight body.
Proof. induction body as [|d body IH]; cbn [sum_of all_of]; [lia|]. intros [F1 F2]. pose proof (weight_nonneg d F1). specialize (IH F2). lia. Qed.

(** what a step does *)
Definition step_ok (al : Z) (u : bool) (c c' : cur) (fl : list sfield) (w : Z) : Prop :=
  head c' = head c ++ fl /\ is_union c' = u /\ alignment c' = al /\ inv c' w.
Lemma inv_mono c w w' : w <= w' -> inv c w -> inv c w'.
Proof. intros L (A & O & T & M & U & F). unfold inv. split; [exact A|]. split; [lia|]. split; [lia|]. auto. Qed.

Lemma run_all_lines cs al body : Forall (fun d => forall c w, alignment c = al -> fine d -> inv c w -> w + weight d < 2 ^ 31 ->
    match run cs d c with UB => False | Err => True | Ok c' => exists fl, line al (is_union c) d (st c) fl (st c') /\ step_ok al (is_union c) c c' fl (w + weight d) end) body ->
  forall c w, alignment c = al -> all_of fine body -> inv c w -> w + sum_of weight body < 2 ^ 31 ->
    match run_all (run cs) body c with UB => False | Err => True | Ok c' => exists fl, lines al (is_union c) body (st c) fl (st c') /\ step_ok al (is_union c) c c' fl (w + sum_of weight body) end.
Proof.
  intros FA. induction FA as [|d body H FA IH]; intros c w AL FI IV W.
  - cbn [run_all sum_of]. exists []. split; [constructor|]. split; [rewrite app_nil_r; reflexivity|]. split; [reflexivity|]. split; [exact AL|]. rewrite Z.add_0_r. exact IV.
  - cbn [run_all sum_of all_of] in *. destruct FI as [F1 F2]. pose proof (weights_nonneg body F2) as WN.
    specialize (H c w AL F1 IV ltac:(lia)). destruct (run cs d c) as [c1| |]; cbn [bindr]; [|exact I|exact H].
    destruct H as (fl & LN & HD & UN & AL1 & IV1). specialize (IH c1 (w + weight d) AL1 F2 IV1 ltac:(lia)). rewrite UN in IH.
    change (match run_all (run cs) body c1 with UB => False | Err => True | Ok c' => exists fl0, lines al (is_union c) (d :: body) (st c) fl0 (st c') /\ step_ok al (is_union c) c c' fl0 (w + (weight d + sum_of weight body)) end).
    destruct (run_all (run cs) body c1) as [c2| |]; [|exact I|exact IH].
    destruct IH as (fl2 & LN2 & HD2 & UN2 & AL2 & IV2). exists (fl ++ fl2). split; [econstructor; eassumption|].
    split; [rewrite HD2, HD, app_assoc; reflexivity|]. split; [exact UN2|]. split; [exact AL2|]. replace (w + (weight d + sum_of weight body)) with (w + weight d + sum_of weight body) by lia. exact IV2.
Qed.
Lemma open_inv u al : 1 <= al <= 64 -> inv (open_struct u al) 0.
Proof. intros A. unfold inv, open_struct. prj. split; [exact A|]. split; [lia|]. split; [lia|]. split; [lia|]. split; [auto|constructor]. Qed.
Lemma run_line cs al : forall d c w, alignment c = al -> fine d -> inv c w -> w + weight d < 2 ^ 31 ->
  match run cs d c with UB => False | Err => True | Ok c' => exists fl, line al (is_union c) d (st c) fl (st c') /\ step_ok al (is_union c) c c' fl (w + weight d) end.
Proof.
  apply (def_ind' (fun d => forall c w, alignment c = al -> fine d -> inv c w -> w + weight d < 2 ^ 31 ->
    match run cs d c with UB => False | Err => True | Ok c' => exists fl, line al (is_union c) d (st c) fl (st c') /\ step_ok al (is_union c) c c' fl (w + weight d) end)).
  - intros n sz ts vt c w AL (S0 & T0 & V0) IV W. cbn [run weight] in *.
    assert (VM : 0 <= vt_max sz vt) by (destruct vt as [[? ?]|]; cbn [vt_max]; assumption).
    pose proof (create_ok cs c n vt sz ts w IV VM T0 ltac:(lia)) as H. destruct (CreateStructField cs c n vt sz ts) as [c'| |]; cbn [bindr]; [|exact I|exact H].
    destruct H as (off & H & HD & MX & UN & A' & OG & HD2 & IV2). cbv zeta in *. exists [SF n off ts (vt_fields vt)]. split.
    + destruct (is_union c).
      * destruct H as [-> ->]. unfold st. constructor.
      * destruct H as [P ->]. unfold st. rewrite AL in P. constructor. exact P.
    + split; [exact HD2|]. split; [exact UN|]. split; [congruence|]. replace (w + (ts + 64)) with (w + ts + 64) by lia. exact IV2.
  - intros v c w AL (k & K & V) IV W. cbn [run weight] in *. unfold AlignInStruct. destruct (is_union c) eqn:IU.
    + exists []. split; [constructor|]. split; [rewrite app_nil_r; reflexivity|]. split; [exact IU|]. split; [exact AL|]. apply (inv_mono c w); [|exact IV]. pose proof (pow2_pos k K). lia.
    + pose proof (pow2_pos k K). destruct IV as (A & O & T & M & U & F). destruct (align_int_place (offset c) v (proj1 O) ltac:(lia) ltac:(lia)) as (r & E & P). rewrite E. cbn [bindr].
      change (2 ^ 31) with 2147483648 in W. assert (RB : offset c <= r < offset c + v) by (destruct P as [P _]; exact P).
      rewrite raise_total_eq by (change (2 ^ 32) with 4294967296; lia). exists []. unfold st, step_ok, inv. prj. split; [constructor; exact P|].
      split; [rewrite app_nil_r; reflexivity|]. split; [exact IU|]. split; [exact AL|]. split; [exact A|]. split; [lia|]. split; [lia|]. split; [exact M|]. split; [congruence|exact F].
  - intros o c w AL O1 IV W. cbn [run weight fine] in *. unfold SetStructCurrentOffset. destruct (is_union c) eqn:IU; [exact I|]. prj.
    destruct IV as (A & O & T & M & U & F). change (2 ^ 31) with 2147483648 in W. rewrite s32_small by (change (2 ^ 31) with 2147483648; lia).
    rewrite Z.gtb_ltb, u32_small by (change (2 ^ 32) with 4294967296; lia). exists [].
    destruct (Z.ltb_spec (total_size c) o) as [L|L]; unfold st, step_ok, inv; prj.
    + replace o with (Z.max (total_size c) o) at 3 by lia. split; [constructor|]. split; [rewrite app_nil_r; reflexivity|]. split; [exact IU|]. split; [exact AL|]. split; [exact A|]. split; [lia|]. split; [lia|]. split; [exact M|]. split; [congruence|exact F].
    + replace (total_size c) with (Z.max (total_size c) o) at 2 by lia. split; [constructor|]. split; [rewrite app_nil_r; reflexivity|]. split; [exact IU|]. split; [exact AL|]. split; [exact A|]. split; [lia|]. split; [lia|]. split; [exact M|]. split; [congruence|exact F].
  - intros u n body IH c w AL FI IV W. cbn [run weight fine] in *. pose proof (weights_nonneg body FI) as WN.
    destruct (match n with [] => false | _ => _ end) eqn:ND; [exact I|].
    assert (AB : 1 <= alignment c <= 64) by (destruct IV as (A & _); exact A). pose proof IV as IVc. destruct IV as (A & O & T & M & U & F). assert (W0 : 0 <= w) by lia.
    pose proof (run_all_lines cs al body IH (open_struct u (alignment c)) 0 AL FI (open_inv u (alignment c) AB) ltac:(lia)) as R.
    destruct (run_all (run cs) body (open_struct u (alignment c))) as [inner| |]; cbn [bindr]; [|exact I|exact R].
    destruct R as (fl & LN & HD & UN & AI & II). cbn [is_union open_struct] in *.
    destruct (finish_ok inner _ II ltac:(lia)) as (PL & HF & MF & TF). rewrite HF, MF. cbn [head open_struct app] in HD. rewrite HD.
    set (dir := finish inner) in *. clearbody dir.
    assert (MI : 0 <= max_mbr_size inner) by (destruct II as (_ & _ & _ & MI & _); exact MI).
    pose proof (create_ok cs c n (Some (fl, max_mbr_size inner)) (total_size dir) (total_size dir) w IVc ltac:(cbn [vt_max]; exact MI) (proj1 TF) ltac:(lia)) as H.
    destruct (CreateStructField cs c n (Some (fl, max_mbr_size inner)) (total_size dir) (total_size dir)) as [c'| |] eqn:CE; cbn [bindr].
    + cbn [vt_max vt_fields] in H. destruct H as (off & H & HD1 & MX & UN1 & A' & OG & HD2 & IV2). cbv zeta in *.
      replace (max_mbr_size inner >? max_mbr_size c') with false by (rewrite Z.gtb_ltb; symmetry; apply Z.ltb_ge; lia).
      exists [SF n off (total_size dir) (Some fl)]. rewrite AI in PL. unfold st in LN at 1. cbn [offset total_size max_mbr_size open_struct] in LN. split.
      * destruct (is_union c).
        -- destruct H as [-> ->]. unfold st. eapply L_struct_union; [exact LN|exact PL].
        -- destruct H as [P ->]. rewrite AL in P. unfold st. eapply L_struct; [exact LN|exact PL|exact P].
      * split; [exact HD2|]. split; [exact UN1|]. split; [congruence|]. apply (inv_mono _ (w + total_size dir + 64)); [lia|exact IV2].
    + destruct n as [|ch n]; [exact I|]. exfalso. unfold CreateStructField in CE. rewrite ND in CE. cbn [vt_max] in CE.
      destruct (field_offset_place c (max_mbr_size inner) (proj1 O) A MI ltac:(lia)) as (off & E & _). rewrite E in CE. cbn [bindr] in CE. discriminate.
    + exact H.
Qed.
