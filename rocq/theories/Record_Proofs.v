From Verif Require Import Base Record_Model Record_Spec RecordRun_Spec.

Lemma total_nonneg ws : Forall (fun w => 0 < w) ws -> 0 <= total ws.
Proof. induction 1; cbn [total]; lia. Qed.
Lemma total_app a b : total (a ++ b) = total a + total b.
Proof. induction a; cbn [total app]; lia. Qed.

Lemma same_eq a : forall b, same a b = true <-> a = b.
Proof.
  induction a as [|x a IH]; intros [|y b]; cbn [same]; try (split; congruence).
  rewrite andb_true_iff, Z.eqb_eq, IH. split; [intros [-> ->]; auto | intros E; injection E; auto].
Qed.
Lemma known_in names n : known names n = true <-> In n names.
Proof.
  unfold known. rewrite existsb_exists. split.
  - intros (m & I & E). apply same_eq in E. subst. auto.
  - intros I. exists n. split; auto. now apply same_eq.
Qed.

Definition plain (it : item) (w : Z) : field := {| f_name := i_name it; f_width := w; f_ivalue := i_ivalue it; f_offset := 0 |}.
Fixpoint plains (items : list item) (ws : list Z) : list field :=
  match items, ws with it :: items, w :: ws => plain it w :: plains items ws | _, _ => [] end.

Lemma parse_ok items : forall names ws cnt, 0 <= cnt <= 128 ->
  map i_width items = map Some ws -> Forall (fun w => 0 <= w < 2 ^ 31) ws ->
  forall p, parse_fields names cnt items = Ok p <->
    (Forall (fun w => 0 < w) ws /\ cnt + total ws <= 128 /\ NoDup (map i_name items) /\
     (forall n, In n (map i_name items) -> ~ In n names)) /\ p = (cnt + total ws, plains items ws).
Proof.
  induction items as [|it items IH]; intros names [|w ws] cnt Hc E F p; cbn [map] in E; try discriminate.
  - cbn [parse_fields plains map total]. replace (cnt + 0) with cnt by lia. split.
    + intros H; injection H as <-. repeat split; auto; try lia. constructor.
    + intros [_ ->]; auto.
  - injection E as Ew E. apply Forall_cons_iff in F. destruct F as [Fw F].
    change (2 ^ 31) with 2147483648 in Fw.
    cbn [parse_fields]. rewrite Ew.
    rewrite swrap_small; [|lia|change (2 ^ (32 - 1)) with 2147483648; lia].
    change (- 2 ^ 31) with (-2147483648).
    rewrite (wrap_small 32 w) by (change (2 ^ 32) with 4294967296; lia).
    cbn zeta. cbn [total map plains].
    destruct (Z.eqb_spec w 0) as [W|W].
    { split; [discriminate|]. intros [(P & _) _]. apply Forall_cons_iff in P. lia. }
    replace (w + cnt <? -2147483648) with false by lia.
    unfold MAXRECBITS. destruct (Z.gtb_spec (w + cnt) 128) as [G|G].
    { split; [discriminate|]. intros [(P & T & _) _]. apply Forall_cons_iff in P. pose proof (total_nonneg ws (proj2 P)). lia. }
    destruct (known names (i_name it)) eqn:K.
    { apply known_in in K. split; [discriminate|]. intros [(_ & _ & _ & D) _]. exfalso. apply (D (i_name it)); cbn; auto. }
    assert (NK : ~ In (i_name it) names) by (rewrite <- known_in; congruence).
    specialize (IH (i_name it :: names) ws (cnt + w) ltac:(lia) E F).
    destruct (parse_fields (i_name it :: names) (cnt + w) items) as [[c fl]| |] eqn:Q; cbn [bindr].
    + destruct (IH (c, fl)) as [IH1 _]. destruct (IH1 eq_refl) as [(A & B & C & D) X]. injection X as -> ->.
      assert (P : (Forall (fun w0 => 0 < w0) (w :: ws) /\ cnt + (w + total ws) <= 128 /\ NoDup (i_name it :: map i_name items) /\
                  (forall n, In n (i_name it :: map i_name items) -> ~ In n names))).
      { split; [constructor; auto; lia|]. split; [lia|]. split.
        - constructor; auto. intros I. apply (D _ I). cbn; auto.
        - intros n [<-|I]; auto. intros I'. apply (D _ I). cbn; auto. }
      replace (cnt + (w + total ws)) with (cnt + w + total ws) in * by lia.
      split; [intros H; injection H as <-; auto | intros [_ ->]; auto].
    + split; [discriminate|]. intros [(A & B & C & D) ->]. apply Forall_cons_iff in A. apply NoDup_cons_iff in C.
      exfalso. destruct (IH (cnt + w + total ws, plains items ws)) as [_ IH2].
      assert (X : Err = Ok (cnt + w + total ws, plains items ws)); [|discriminate]. apply IH2.
      split; auto. split; [tauto|]. split; [lia|]. split; [tauto|].
      intros n I [<-|I']; [tauto|]. apply (D n); cbn; auto.
    + split; [discriminate|]. intros [(A & B & C & D) ->]. apply Forall_cons_iff in A. apply NoDup_cons_iff in C.
      exfalso. destruct (IH (cnt + w + total ws, plains items ws)) as [_ IH2].
      assert (X : UB = Ok (cnt + w + total ws, plains items ws)); [|discriminate]. apply IH2.
      split; auto. split; [tauto|]. split; [lia|]. split; [tauto|].
      intros n I [<-|I']; [tauto|]. apply (D n); cbn; auto.
Qed.

Lemma record_size_ok n : 0 <= n <= 128 -> forall s, bytes_for n s <-> s = record_size n.
Proof.
  intros H s. unfold bytes_for, record_size. split.
  - intros (I & L & M).
    pose proof (M 1 ltac:(cbn; auto)). pose proof (M 2 ltac:(cbn; auto)). pose proof (M 4 ltac:(cbn; auto)).
    pose proof (M 8 ltac:(cbn; auto)). pose proof (M 16 ltac:(cbn; auto 6)). clear M.
    cbn [In] in I.
    destruct (Z.gtb_spec n 16), (Z.gtb_spec n 64), (Z.gtb_spec n 32), (Z.gtb_spec n 8); lia.
  - intros ->.
    destruct (Z.gtb_spec n 16), (Z.gtb_spec n 64), (Z.gtb_spec n 32), (Z.gtb_spec n 8);
      (split; [cbn; auto 7|split; [lia|intros s' [<-|[<-|[<-|[<-|[<-|[]]]]]]; lia]]).
Qed.

Lemma set_positions_ok items : forall ws, length items = length ws -> Forall (fun w => 0 < w) ws -> total ws <= 128 ->
  let l := set_positions (total ws) (plains items ws) in
  map f_name l = map i_name items /\ map f_ivalue l = map i_ivalue items /\ map f_width l = ws /\ map f_offset l = positions ws.
Proof.
  induction items as [|it items IH]; intros [|w ws] L F T; cbn [length] in L; try discriminate.
  - cbn. auto.
  - apply Forall_cons_iff in F. destruct F as [W F]. pose proof (total_nonneg _ F).
    cbn [plains total set_positions plain f_width f_name f_ivalue] in *.
    rewrite swrap_small; [|lia|change (2 ^ (32 - 1)) with 2147483648; lia].
    replace (w + total ws - w) with (total ws) by lia.
    cbn [map f_name f_ivalue f_width f_offset positions].
    destruct (IH ws ltac:(lia) F ltac:(lia)) as (A & B & C & D).
    rewrite A, B, C, D. auto.
Qed.

Lemma fields_ext (l l' : list field) : map f_name l = map f_name l' -> map f_ivalue l = map f_ivalue l' ->
  map f_width l = map f_width l' -> map f_offset l = map f_offset l' -> l = l'.
Proof.
  revert l'; induction l as [|[] l IH]; intros [|[] l']; cbn; try discriminate; auto.
  intros A B C D. injection A as -> A. injection B as -> B. injection C as -> C. injection D as -> D. f_equal. auto.
Qed.

Lemma definition names items ws r :
  map i_width items = map Some ws -> Forall (fun w => 0 <= w < 2 ^ 31) ws ->
  RecordDirective names items = Ok r <->
    (Forall (fun w => 0 < w) ws /\ total ws <= 128 /\ NoDup (map i_name items) /\
     (forall n, In n (map i_name items) -> ~ In n names)) /\ laid_out items ws r.
Proof.
  intros E F. unfold RecordDirective.
  pose proof (parse_ok items names ws 0 ltac:(lia) E F) as P. change (0 + total ws) with (total ws) in P.
  assert (L : length items = length ws) by (apply (f_equal (@length _)) in E; rewrite !map_length in E; auto).
  split.
  - destruct (parse_fields names 0 items) as [[c fl]| |]; try discriminate. cbn [bindr]. intros H; injection H as <-.
    destruct (proj1 (P _) eq_refl) as [(A & B & C & D) X]. injection X as -> ->.
    split; auto. unfold laid_out. cbn [r_fields r_size].
    pose proof (set_positions_ok items ws L A B) as S. cbn zeta in S.
    pose proof (total_nonneg _ A).
    destruct S as (S1 & S2 & S3 & S4). repeat (split; [assumption|]). apply record_size_ok; auto; lia.
  - intros [(A & B & C & D) (L1 & L2 & L3 & L4 & L5)].
    pose proof (total_nonneg _ A).
    rewrite (proj2 (P _) (conj (conj A (conj B (conj C D))) eq_refl)). cbn [bindr].
    apply record_size_ok in L5; [|lia].
    pose proof (set_positions_ok items ws L A B) as S. cbn zeta in S. destruct S as (S1 & S2 & S3 & S4).
    destruct r as [s fl]. cbn [r_size r_fields] in *. subst s. f_equal. f_equal.
    apply fields_ext; congruence.
Qed.

Lemma proper_of names items ws r : map i_width items = map Some ws -> Forall (fun w => 0 <= w < 2 ^ 31) ws ->
  RecordDirective names items = Ok r -> proper r.
Proof.
  intros E F H. apply (definition names items ws) in H; auto. destruct H as [(A & B & _) (L1 & L2 & L3 & L4 & L5)].
  unfold proper, widths. rewrite L3. auto.
Qed.

(** ** disjoint bits *)
Lemma lor_disjoint a b n : 0 <= n -> 0 <= b < 2 ^ n -> Z.lor (a * 2 ^ n) b = a * 2 ^ n + b.
Proof.
  intros Hn Hb. rewrite <- Z.shiftl_mul_pow2 by lia.
  assert (D : Z.land (Z.shiftl a n) b = 0).
  { apply Z.bits_inj'. intros i Hi. rewrite Z.land_spec, Z.bits_0.
    destruct (Z.lt_ge_cases i n).
    - rewrite Z.shiftl_spec_low by lia. auto.
    - rewrite <- (Z.mod_small b (2 ^ n)) by lia. rewrite Z.mod_pow2_bits_high by lia. apply andb_false_r. }
  rewrite <- Z.lxor_lor by auto. symmetry. apply Z.add_nocarry_lxor; auto.
Qed.
Lemma wrap_lor n a b : 0 <= n -> wrap n (Z.lor a b) = Z.lor (wrap n a) (wrap n b).
Proof. intros. unfold wrap. rewrite <- !Z.land_ones by lia. apply Z.land_lor_distr_l. Qed.

Lemma packed_range l : Forall (fun '(w, v) => 0 < w /\ 0 <= v < 2 ^ w) l -> 0 <= packed l < 2 ^ total (map fst l).
Proof.
  induction 1 as [|[w v] l [W V] F IH]; cbn [packed total map fst]; [cbn; lia|].
  assert (0 <= total (map fst l)).
  { apply total_nonneg. clear -F. induction F as [|[w v] l [W V] F IH]; cbn; constructor; auto. }
  rewrite Z.pow_add_r by lia. nia.
Qed.

Lemma packed_extract l : Forall (fun '(w, v) => 0 < w /\ 0 <= v < 2 ^ w) l ->
  forall a w v b, l = a ++ (w, v) :: b -> extract (packed l) (total (map fst b)) w = v.
Proof.
  intros F a. revert l F. induction a as [|[w0 v0] a IH]; intros l F w v b ->.
  - cbn [app packed]. cbn [app] in F. apply Forall_cons_iff in F. destruct F as [[W V] F].
    pose proof (packed_range b F). unfold extract.
    assert (0 < 2 ^ total (map fst b)) by lia.
    rewrite Z.div_add_l by lia. rewrite (Z.div_small (packed b)) by lia. rewrite Z.add_0_r. apply Z.mod_small. auto.
  - cbn [app packed]. cbn [app] in F. apply Forall_cons_iff in F. destruct F as [_ F].
    specialize (IH _ F w v b eq_refl). unfold extract in *.
    rewrite map_app, total_app. cbn [map fst total].
    assert (Fb : Forall (fun '(w, v) => 0 < w /\ 0 <= v < 2 ^ w) b).
    { apply Forall_app in F. destruct F as [_ F]. apply Forall_cons_iff in F. tauto. }
    assert (W : 0 < w). { apply Forall_app in F. destruct F as [_ F]. apply Forall_cons_iff in F. tauto. }
    assert (Tb : 0 <= total (map fst b)).
    { apply total_nonneg. clear -Fb. induction Fb as [|[x y] l [X Y] Fb IH]; cbn; constructor; auto. }
    assert (Ta : 0 <= total (map fst a)).
    { apply total_nonneg. apply Forall_app in F. destruct F as [F _]. clear -F. induction F as [|[x y] l [X Y] Fb IH]; cbn; constructor; auto. }
    pose proof (pow2_pos _ Tb).
    rewrite (Z.pow_add_r 2 (total (map fst a))) by lia. rewrite Z.pow_add_r by lia.
    replace (v0 * (2 ^ total (map fst a) * (2 ^ w * 2 ^ total (map fst b))))
      with ((v0 * 2 ^ total (map fst a) * 2 ^ w) * 2 ^ total (map fst b)) by ring.
    rewrite Z.div_add_l by lia.
    rewrite Z.add_comm, Z.mod_add by (pose proof (pow2_pos w); lia). exact IH.
Qed.
