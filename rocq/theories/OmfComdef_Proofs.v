From Verif Require Import Base OmfRec_Model OmfRec_Spec OmfRec_Proofs OmfNames_Model OmfNames_Spec OmfNames_Proofs.

(** the fields no index assignment touches *)
Definition same_sym (a b : sym) : Prop :=
  s_name a = s_name b /\ s_iscomm a = s_iscomm b /\ s_weak a = s_weak b /\ s_external a = s_external b /\
  s_isfar a = s_isfar b /\ s_altname a = s_altname b /\ s_varsize a = s_varsize b /\
  s_total_size a = s_total_size b /\ s_total_length a = s_total_length b.
Definition same (st st' : store) : Prop := forall i, same_sym (st i) (st' i).

Lemma same_refl st : same st st.
Proof. intros i. repeat split. Qed.
Lemma same_trans a b c : same a b -> same b c -> same a c.
Proof.
  intros H1 H2 i. specialize (H1 i). specialize (H2 i). unfold same_sym in *.
  decompose [and] H1. decompose [and] H2. repeat split; congruence.
Qed.
Lemma same_sym_same a b : same a b -> same b a.
Proof. intros H i. specialize (H i). unfold same_sym in *. decompose [and] H. repeat split; congruence. Qed.
Lemma same_upd st i s : same_sym (st i) s -> same st (upd st i s).
Proof.
  intros H j. unfold upd. destruct (Nat.eqb_spec j i); [subst; exact H|]. repeat split.
Qed.
Lemma upd_eq st i s : upd st i s i = s.
Proof. unfold upd. rewrite Nat.eqb_refl. reflexivity. Qed.
Lemma upd_neq st i s j : j <> i -> upd st i s j = st j.
Proof. unfold upd. intros H. destruct (Nat.eqb_spec j i); congruence. Qed.

(** a communal variable whose sizes are representable *)
Definition comm_size (s : sym) : Z :=
  if s_varsize s =? 0 then s_total_size s / s_total_length s else s_varsize s.
Definition comm_ok (s : sym) : Prop :=
  name_ok (s_name s) /\ u32 (s_varsize s) /\ u32 (s_total_size s) /\ 0 < s_total_length s < 2 ^ 32 /\
  s_total_length s * comm_size s < 2 ^ 32.
(** what the linker must see *)
Definition comm_of (s : sym) : comm :=
  if s_isfar s then Far (s_total_length s) (comm_size s) else Near (s_total_length s * comm_size s).

Lemma comm_size_range s : comm_ok s -> 0 <= comm_size s < 2 ^ 32.
Proof.
  intros (_ & V & T & L & _). unfold comm_size, u32 in *. destruct (s_varsize s =? 0); [|lia].
  split; [apply Z.div_pos; lia|]. apply Z.div_lt_upper_bound; [lia|].
  nia.
Qed.

Definition num_bytes (s : sym) : list Z :=
  if s_isfar s then 0x61 :: put_comdef_number (s_total_length s) ++ put_comdef_number (comm_size s)
  else 0x62 :: put_comdef_number (s_total_length s * comm_size s).
Lemma comdef_number_eq s : comm_ok s -> comdef_number s = Ok (num_bytes s).
Proof.
  intros H. pose proof (comm_size_range s H) as R. destruct H as (_ & V & T & L & P).
  unfold comdef_number, num_bytes. unfold comm_size in *.
  destruct (s_varsize s =? 0) eqn:E.
  - replace (s_total_length s =? 0) with false by lia. cbn [bindr]. rewrite wrap_small by nia. reflexivity.
  - cbn [bindr]. rewrite wrap_small by nia. reflexivity.
Qed.
Lemma num_bytes_len s : comm_ok s -> zlen (num_bytes s) <= 11.
Proof.
  intros H. pose proof (comm_size_range s H) as R. destruct H as (_ & V & T & L & P). unfold num_bytes.
  destruct (s_isfar s); rewrite zlen_cons, ?zlen_app.
  - pose proof (comdef_number_roundtrip (s_total_length s) [] ltac:(lia)) as (_ & _ & _ & A).
    pose proof (comdef_number_roundtrip (comm_size s) [] R) as (_ & _ & _ & B). lia.
  - pose proof (comdef_number_roundtrip (s_total_length s * comm_size s) [] ltac:(nia)) as (_ & _ & _ & A). lia.
Qed.

Definition enc_com (s : sym) : list Z := [wrap 8 (zlen (s_name s))] ++ s_name s ++ [0] ++ num_bytes s.

Lemma enc_com_read s r : comm_ok s -> rd_com1 (enc_com s ++ r) = Some ((s_name s, comm_of s), r).
Proof.
  intros H. pose proof (comm_size_range s H) as R. destruct H as ((_ & N) & V & T & L & P).
  unfold rd_com1, enc_com. rewrite <- !app_assoc.
  change ([wrap 8 (zlen (s_name s))] ++ s_name s ++ [0] ++ num_bytes s ++ r)
    with ([wrap 8 (zlen (s_name s))] ++ s_name s ++ (0 :: num_bytes s ++ r)).
  rewrite rd_name_app by assumption. cbn [bindo rd_index Z.ltb Z.compare].
  unfold num_bytes, comm_of. destruct (s_isfar s); cbn [app rd_byte bindo].
  - change (97 =? 98) with false. change (97 =? 97) with true. cbv iota.
    rewrite <- app_assoc.
    rewrite (proj1 (comdef_number_roundtrip (s_total_length s) _ ltac:(lia))). cbn [bindo].
    rewrite (proj1 (comdef_number_roundtrip (comm_size s) _ R)). reflexivity.
  - change (98 =? 98) with true. cbv iota.
    rewrite (proj1 (comdef_number_roundtrip (s_total_length s * comm_size s) _ ltac:(nia))). reflexivity.
Qed.

Lemma enc_com_byte s : comm_ok s -> Forall is_byte (enc_com s).
Proof.
  intros H. pose proof (comm_size_range s H) as R. destruct H as ((B & N) & V & T & L & P).
  unfold enc_com. cbn [app]. apply Forall_cons.
  { pose proof (wrap_range 8 (zlen (s_name s)) ltac:(lia)) as W. change (2 ^ 8) with 256 in W. exact W. }
  apply Forall_app. split; [exact B|]. apply Forall_cons; [unfold is_byte; lia|].
  unfold num_bytes. destruct (s_isfar s); (apply Forall_cons; [unfold is_byte; lia|]).
  - apply Forall_app. split.
    + exact (proj1 (proj2 (proj2 (comdef_number_roundtrip (s_total_length s) [] ltac:(lia))))).
    + exact (proj1 (proj2 (proj2 (comdef_number_roundtrip (comm_size s) [] R)))).
  - exact (proj1 (proj2 (proj2 (comdef_number_roundtrip (s_total_length s * comm_size s) [] ltac:(nia))))).
Qed.

Lemma enc_com_len s : comm_ok s -> zlen (enc_com s) = zlen (s_name s) + zlen (num_bytes s) + 2 /\ zlen (enc_com s) <= 268.
Proof.
  intros H. pose proof (num_bytes_len s H). destruct H as ((B & N) & _).
  unfold enc_com. cbn [app]. rewrite zlen_cons, zlen_app, zlen_cons. lia.
Qed.

Lemma same_enc a b : same_sym a b -> enc_com a = enc_com b /\ (comm_ok a -> comm_ok b) /\ comm_of a = comm_of b.
Proof.
  intros (E1 & E2 & E3 & E4 & E5 & E6 & E7 & E8 & E9).
  unfold enc_com, comm_ok, comm_of, num_bytes, comm_size. rewrite E1, E5, E7, E8, E9. auto.
Qed.

Lemma same_flat st st' l : same st st' ->
  flat_map (fun i => enc_com (st i)) l = flat_map (fun i => enc_com (st' i)) l.
Proof.
  intros H. induction l; cbn [flat_map]; [reflexivity|]. rewrite IHl.
  rewrite (proj1 (same_enc _ _ (H a))). reflexivity.
Qed.

Definition coms (st : store) (l : list nat) : list nat := filter (fun i => s_iscomm (st i)) l.
Lemma coms_same st st' l : same st st' -> coms st l = coms st' l.
Proof.
  intros H. unfold coms. apply filter_ext. intros i. specialize (H i). unfold same_sym in H. tauto.
Qed.

Definition com_rec (st : store) (g : list nat) : omf_rec :=
  mk_rec CMD_COMDEF (flat_map (fun i => enc_com (st i)) g).

(** index of an item found at position (group number, position in the whole) *)
Definition idx_spec (st' : store) (groups : list (list nat)) (skip : nat) (index : Z) : Prop :=
  forall pre g post l1 i l2, groups = pre ++ g :: post -> g = l1 ++ i :: l2 ->
    (skip <= length (concat pre) + length l1)%nat ->
    s_idx1 (st' i) = index + (Z.of_nat (length (concat pre) + length l1) - Z.of_nat skip) + Z.of_nat (length pre).

Definition budget (nb curr : list nat) : nat :=
  (2 * length curr + match nb, curr with [], _ :: _ => 0 | _, _ => 1 end)%nat.

Lemma comdef_groups fuel : forall curr st nb index num data,
  NoDup curr -> Forall (fun i => s_iscomm (st i) = true -> comm_ok (st i)) curr ->
  data = flat_map (fun i => enc_com (st i)) nb -> num = zlen nb -> zlen data <= 1020 ->
  (budget nb curr <= fuel)%nat ->
  0 <= index -> index + Z.of_nat (budget nb curr) < 2 ^ 16 ->
  exists groups st' index', comdef_loop fuel st curr index num data = Ok (map (com_rec st) groups, st', index') /\
    concat groups = nb ++ coms st curr /\ same st st' /\
    Forall (fun g => zlen (r_data (com_rec st g)) <= 1020) groups /\
    (forall i, ~ In i curr -> st' i = st i) /\
    (forall i, s_iscomm (st i) = false -> st' i = st i) /\
    idx_spec st' groups (length nb) index /\
    (nb <> [] -> exists t gs, groups = (nb ++ t) :: gs) /\
    index <= index' <= index + Z.of_nat (budget nb curr).
Proof.
  induction fuel as [|fuel IH]; intros curr st nb index num data ND OK D N L F I1 I2.
  { unfold budget in F. destruct nb, curr; cbn [length] in F; lia. }
  cbn [comdef_loop]. subst num.
  destruct curr as [|i rest].
  - destruct (zlen nb >? 0) eqn:Z0.
    + exists [nb], st, index. cbn [map concat]. change (coms st []) with (@nil nat). rewrite !app_nil_r. unfold com_rec at 1. rewrite <- D.
      split; [reflexivity|]. split; [reflexivity|]. split; [apply same_refl|].
      split; [apply Forall_cons; [cbn [com_rec mk_rec r_data]; rewrite <- D; exact L|apply Forall_nil]|].
      split; [reflexivity|]. split; [auto|]. split; [|split; [|lia]].
      { intros pre g post l1 x l2 E1 E2 E3. destruct pre as [|p0 pre].
      * cbn [app] in E1. injection E1 as <- <-. subst nb. rewrite app_length in E3. cbn [length concat] in E3. lia.
      * destruct pre; cbn [app] in E1; discriminate E1. }
      intros _. exists [], []. rewrite app_nil_r. reflexivity.
    + assert (nb = []) by (apply zlen0; pose proof (zlen_nonneg nb); lia). subst nb. cbn [flat_map] in D. subst data.
      exists [], st, index. cbn [map concat app coms filter].
      split; [reflexivity|]. split; [reflexivity|]. split; [apply same_refl|]. split; [apply Forall_nil|].
      split; [reflexivity|]. split; [auto|]. split; [|split; [congruence|lia]].
      intros pre g post l1 x l2 E1. destruct pre; discriminate E1.
  - apply NoDup_cons_iff in ND as [NI ND]. apply Forall_cons_iff in OK as [OK1 OK].
    destruct (s_iscomm (st i)) eqn:C.
    + specialize (OK1 eq_refl). rewrite comdef_number_eq by assumption. cbn [bindr].
      assert (W : wrap 16 (index + 1) = index + 1).
      { apply wrap_small. unfold budget in I2. cbn [length] in I2. lia. }
      rewrite W.
      set (st1 := upd st i (set_idx2 (set_idx1 (st i) index) 0 (s_included (st i)))).
      assert (SM : same st st1) by (apply same_upd; repeat split).
      pose proof (enc_com_len (st i) OK1) as [EL EL2].
      assert (OKc : Forall (fun j => s_iscomm (st1 j) = true -> comm_ok (st1 j)) (i :: rest)).
      { eapply Forall_impl; [|exact (Forall_cons _ (fun _ => OK1) OK)]. cbn beta.
        intros j H Q. apply (proj1 (proj2 (same_enc _ _ (SM j)))). apply H.
        destruct (SM j) as (_ & X & _). congruence. }
      assert (GR : forall g, com_rec st g = com_rec st1 g).
      { intros g. unfold com_rec. rewrite (same_flat _ _ g SM). reflexivity. }
      destruct (zlen data + zlen (s_name (st i)) + zlen (num_bytes (st i)) + 2 >? MAX_EXT_LENGTH) eqn:FT; unfold MAX_EXT_LENGTH in FT.
      * assert (NE : nb <> []). { intros ->. cbn [flat_map] in D. subst data. change (zlen (@nil Z)) with 0 in FT. lia. }
        assert (BU : budget nb (i :: rest) = S (budget [] (i :: rest))).
        { unfold budget. destruct nb; [congruence|]. lia. }
        rewrite BU in *.
        destruct (IH (i :: rest) st1 [] (index + 1) 0 []) as (groups & st' & index' & E & CC & SS & SZ & OUT & INC & IDX & PRE & BND);
          [constructor; assumption|exact OKc|reflexivity|reflexivity|change (zlen (@nil Z)) with 0; lia|lia|lia|lia|].
        rewrite E. cbn [bindr].
        assert (NZ : (zlen nb >? 0) = true) by (destruct nb; [congruence|rewrite zlen_cons; pose proof (zlen_nonneg nb); lia]).
        rewrite NZ. exists (nb :: groups), st', index'.
        split. { cbn [map app]. f_equal. f_equal. f_equal. f_equal; [unfold com_rec; rewrite <- D; reflexivity|]. apply map_ext. intros; symmetry; apply GR. }
        split. { cbn [concat]. rewrite CC, (coms_same _ _ _ SM). reflexivity. }
        split; [exact (same_trans _ _ _ SM SS)|].
        split. { apply Forall_cons; [cbn [com_rec mk_rec r_data]; rewrite <- D; exact L|].
                 eapply Forall_impl; [|exact SZ]. cbn beta. intros g. rewrite GR. auto. }
        split. { intros j NJ. rewrite OUT by exact NJ. unfold st1. apply upd_neq. intros ->. apply NJ. left; reflexivity. }
        split. { intros j CJ. rewrite INC.
                 - unfold st1. apply upd_neq. intros ->. congruence.
                 - destruct (SM j) as (_ & X & _). congruence. }
        split; [|split; [intros _; exists [], groups; rewrite app_nil_r; reflexivity|lia]].
        intros pre g post l1 x l2 E1 E2 E3. destruct pre as [|p0 pre]; cbn [app] in E1; injection E1 as <- E1.
        -- subst nb. rewrite app_length in E3. cbn [length concat] in E3. lia.
        -- rewrite (IDX pre g post l1 x l2 E1 E2) by (cbn [length]; lia).
           cbn [concat length]. rewrite app_length. lia.
      * assert (FM : data ++ enc_com (st i) = flat_map (fun j => enc_com (st1 j)) (nb ++ [i])).
        { rewrite <- (same_flat st st1 _ SM), flat_map_app. cbn [flat_map]. rewrite app_nil_r, D. reflexivity. }
        assert (BU : (S (budget (nb ++ [i]) rest) <= budget nb (i :: rest))%nat).
        { unfold budget. cbn [length]. destruct nb; cbn [app]; lia. }
        destruct (IH rest st1 (nb ++ [i]) (index + 1) (zlen nb + 1) (data ++ enc_com (st i)))
          as (groups & st' & index' & E & CC & SS & SZ & OUT & INC & IDX & PRE & BND);
          [assumption|apply Forall_cons_iff in OKc as [_ OKc]; exact OKc|exact FM
          |rewrite zlen_app; reflexivity|rewrite zlen_app; lia|lia|lia|lia|].
        change (data ++ [wrap 8 (zlen (s_name (st i)))] ++ s_name (st i) ++ [0] ++ num_bytes (st i))
          with (data ++ enc_com (st i)).
        rewrite E. exists groups, st', index'.
        split. { f_equal. f_equal. f_equal. apply map_ext. intros; symmetry; apply GR. }
        split. { rewrite CC, <- app_assoc. cbn [app]. unfold coms. cbn [filter]. rewrite C. f_equal. f_equal.
                 symmetry. apply coms_same. exact SM. }
        split; [exact (same_trans _ _ _ SM SS)|].
        split. { eapply Forall_impl; [|exact SZ]. cbn beta. intros g. rewrite GR. auto. }
        split. { intros j NJ. rewrite OUT by (intros HH; apply NJ; right; exact HH). unfold st1.
                 apply upd_neq. intros ->. apply NJ. left; reflexivity. }
        split. { intros j CJ. rewrite INC.
                 - unfold st1. apply upd_neq. intros ->. congruence.
                 - destruct (SM j) as (_ & X & _). congruence. }
        destruct PRE as (t & gs & EG); [destruct nb; discriminate|].
        split; [|split; [intros _; exists (i :: t), gs; rewrite EG, <- app_assoc; reflexivity|lia]].
        intros pre g post l1 x l2 E1 E2 E3. rewrite app_length in IDX. cbn [length] in IDX.
        destruct (Nat.eq_dec (length (concat pre) + length l1) (length nb)) as [EQ|NEQ].
        -- (* the item just placed *)
           rewrite EG in E1. destruct pre as [|p0 pre]; cbn [app] in E1; injection E1 as E1 E4.
           ++ cbn [concat length] in EQ |- *. rewrite <- E1, <- app_assoc in E2. cbn [app] in E2.
              assert (XI : x = i).
              { clear - E2 EQ. cbn [Nat.add] in EQ. revert nb E2 EQ. induction l1; intros [|c nb] E2 EQ; cbn [length] in EQ; try lia; cbn [app] in E2.
                - congruence.
                - injection E2 as _ E2. eapply IHl1; [exact E2|lia]. }
              subst x. rewrite OUT by exact NI. unfold st1. rewrite upd_eq. cbn [set_idx2 set_idx1 s_idx1].
              rewrite wrap_small by (unfold budget in I2; lia). lia.
           ++ exfalso. rewrite <- E1 in EQ. cbn [concat] in EQ. rewrite !app_length in EQ. cbn [length] in EQ. lia.
        -- rewrite (IDX pre g post l1 x l2 E1 E2) by lia. lia.
    + assert (BU : (S (budget nb rest) <= budget nb (i :: rest))%nat).
      { unfold budget. cbn [length]. destruct nb, rest; lia. }
      destruct (IH rest st nb index (zlen nb) data)
          as (groups & st' & index' & E & CC & SS & SZ & OUT & INC & IDX & PRE & BND);
          [assumption|assumption|assumption|reflexivity|assumption|lia|lia|lia|].
      rewrite E. exists groups, st', index'. unfold coms. cbn [filter]. rewrite C.
      split; [reflexivity|]. split; [exact CC|]. split; [exact SS|]. split; [exact SZ|].
      split. { intros j NJ. apply OUT. intros HH. apply NJ. right; exact HH. }
      split; [exact INC|]. split; [exact IDX|]. split; [exact PRE|lia].
Qed.

Lemma com_rec_ok (st : store) g : Forall (fun i => comm_ok (st i)) g -> rec_ok (com_rec st g).
Proof.
  intros H. unfold rec_ok, com_rec, mk_rec. cbn [r_is32 r_data r_cmd r_d].
  split; [left; reflexivity|]. split.
  - apply flat_map_byte. eapply Forall_impl; [|exact H]. intros i. apply enc_com_byte.
  - left. split; [|reflexivity]. unfold CMD_COMDEF. cbn; auto 20.
Qed.

Lemma com_rec_read (st : store) g : Forall (fun i => comm_ok (st i)) g ->
  rd_many rd_com1 (length (flat_map (fun i => enc_com (st i)) g)) (flat_map (fun i => enc_com (st i)) g)
  = Some (map (fun i => (s_name (st i), comm_of (st i))) g).
Proof.
  intros H. rewrite Forall_forall in H. apply rd_many_concat; [|discriminate|lia].
  intros i r I. apply enc_com_read. auto.
Qed.

Definition com_entry (st : store) (i : nat) : external := Com (s_name (st i)) (comm_of (st i)).

Lemma com_groups_table (st : store) groups : Forall (Forall (fun i => comm_ok (st i))) groups ->
  external_table (map meaning (map (com_rec st) groups)) = Some (map (com_entry st) (concat groups)).
Proof.
  intros H. unfold external_table. rewrite map_map. rewrite Forall_forall in H.
  apply concat_opt_groups. intros g I.
  cbn [meaning com_rec mk_rec r_d r_cmd r_is32 r_data CMD_COMDEF].
  rewrite com_rec_read by (apply H; exact I). cbn [bindo]. rewrite map_map. reflexivity.
Qed.

Lemma coms_ok (st : store) l : Forall (fun i => s_iscomm (st i) = true -> comm_ok (st i)) l ->
  Forall (fun i => comm_ok (st i)) (coms st l).
Proof.
  intros H. rewrite Forall_forall in *. intros i I. apply filter_In in I as [I1 I2]. auto.
Qed.

Theorem comdef_correct exts st index :
  NoDup exts -> Forall (fun i => s_iscomm (st i) = true -> comm_ok (st i)) exts ->
  0 <= index -> index + 2 * zlen exts + 1 < 2 ^ 16 ->
  exists recs st' index' bytes vs,
    omf_write_comdef exts st index = Ok (recs, st', index') /\
    omf_write_records recs = Ok bytes /\ read_views bytes = Some vs /\
    vs = map meaning recs /\
    external_table vs = Some (map (com_entry st) (coms st exts)) /\
    Forall rec_ok recs /\ Forall (fun r => zlen (r_data r) <= 1020) recs /\
    same st st' /\ (forall i, s_iscomm (st i) = false -> st' i = st i) /\
    (* the index of the k-th communal, which is in record number j *)
    forall j k i, nth_error (coms st exts) k = Some i ->
      (exists a b, external_table (map meaning (firstn j recs)) = Some a /\
                   external_table (map meaning (firstn (S j) recs)) = Some b /\
                   (length a <= k < length b)%nat) ->
      s_idx1 (st' i) = index + Z.of_nat k + Z.of_nat j.
Proof.
  intros ND OK I1 I2. unfold omf_write_comdef.
  destruct (comdef_groups (2 * length exts + 2) exts st [] index 0 []) as
    (groups & st' & index' & E & CC & SS & SZ & OUT & INC & IDX & PRE & BND);
    [assumption|assumption|reflexivity|reflexivity|change (zlen (@nil Z)) with 0; lia
    |unfold budget; destruct exts; cbn [length]; lia|lia
    |unfold budget, zlen in *; destruct exts; cbn [length] in *; lia|].
  cbn [app] in CC.
  assert (GOK : Forall (Forall (fun i => comm_ok (st i))) groups).
  { apply Forall_concat_inv. rewrite CC. apply coms_ok. exact OK. }
  assert (ROK : Forall rec_ok (map (com_rec st) groups)).
  { rewrite Forall_map. eapply Forall_impl; [|exact GOK]. intros g. apply com_rec_ok. }
  assert (RSZ : Forall (fun r => zlen (r_data r) <= 1020) (map (com_rec st) groups)).
  { rewrite Forall_map. exact SZ. }
  destruct (records_readable (map (com_rec st) groups)) as (bytes & B1 & B2).
  { exact ROK. }
  { eapply Forall_impl; [|exact RSZ]. cbn beta. intros; lia. }
  eexists _, st', index', bytes, _. split; [exact E|]. split; [exact B1|]. split; [exact B2|].
  split; [reflexivity|]. split; [rewrite <- CC; apply com_groups_table; exact GOK|].
  split; [exact ROK|]. split; [exact RSZ|]. split; [exact SS|]. split; [exact INC|].
  intros j k i K (a & b & A & B & LK).
  assert (FN : forall n, Forall (Forall (fun i => comm_ok (st i))) (firstn n groups)).
  { intros n. rewrite <- (firstn_skipn n groups) in GOK. apply Forall_app in GOK. tauto. }
  rewrite firstn_map, com_groups_table in A, B by apply FN.
  assert (OI : forall T (u v : T), Some u = Some v -> v = u) by (intros T u v Q; congruence).
  apply OI in A. apply OI in B. subst a b.
  rewrite !map_length in LK.
  assert (J : (j < length groups)%nat).
  { destruct (Nat.lt_ge_cases j (length groups)); [assumption|]. rewrite !firstn_all2 in LK by lia. lia. }
  destruct (nth_error groups j) as [g|] eqn:G; [|apply nth_error_None in G; lia].
  assert (SPL : groups = firstn j groups ++ g :: skipn (S j) groups).
  { clear - G. revert j G. induction groups; intros [|j] G; try discriminate; cbn [nth_error] in G.
    - injection G as ->. reflexivity.
    - cbn [firstn skipn app]. f_equal. apply IHgroups. exact G. }
  assert (F1 : firstn (S j) groups = firstn j groups ++ [g]).
  { clear - G. revert j G. induction groups; intros [|j] G; try discriminate; cbn [nth_error] in G.
    - injection G as ->. reflexivity.
    - cbn [firstn app]. f_equal. apply IHgroups. exact G. }
  rewrite F1, concat_app, app_length in LK. cbn [concat] in LK. rewrite app_nil_r in LK.
  set (m := (k - length (concat (firstn j groups)))%nat) in *.
  assert (GM : nth_error g m = Some i).
  { rewrite <- CC, SPL, concat_app in K. cbn [concat] in K.
    rewrite nth_error_app2 in K by lia. fold m in K. rewrite nth_error_app1 in K by (subst m; lia). exact K. }
  apply nth_error_split in GM as (l1 & l2 & G1 & G2).
  rewrite (IDX (firstn j groups) g (skipn (S j) groups) l1 i l2 SPL G1) by (cbn [length]; lia).
  rewrite firstn_length, G2. cbn [length]. subst m. lia.
Qed.
