From Verif Require Import Base OmfRec_Model OmfRec_Spec OmfRec_Proofs OmfNames_Model OmfNames_Spec OmfNames_Proofs OmfComdef_Proofs.

Definition enc_ext (s : sym) : list Z := [wrap 8 (zlen (s_name s))] ++ s_name s ++ [0].
Definition ext_rec (st : store) (g : list nat) : omf_rec :=
  mk_rec CMD_EXTDEF (flat_map (fun i => enc_ext (st i)) g).

Lemma enc_ext_len s : zlen (enc_ext s) = zlen (s_name s) + 2.
Proof. unfold enc_ext. cbn [app]. rewrite zlen_cons, zlen_app. change (zlen [0]) with 1. lia. Qed.
Lemma enc_ext_byte s : name_ok (s_name s) -> Forall is_byte (enc_ext s).
Proof.
  intros [B L]. unfold enc_ext. cbn [app]. apply Forall_cons.
  { pose proof (wrap_range 8 (zlen (s_name s)) ltac:(lia)) as W. change (2 ^ 8) with 256 in W. exact W. }
  apply Forall_app. split; [exact B|]. apply Forall_cons; [unfold is_byte; lia|apply Forall_nil].
Qed.
Lemma enc_ext_read s r : name_ok (s_name s) -> rd_ext1 (enc_ext s ++ r) = Some (s_name s, r).
Proof.
  intros [B L]. unfold rd_ext1, enc_ext. rewrite <- !app_assoc.
  change ([wrap 8 (zlen (s_name s))] ++ s_name s ++ [0] ++ r) with ([wrap 8 (zlen (s_name s))] ++ s_name s ++ (0 :: r)).
  rewrite rd_name_app by assumption. reflexivity.
Qed.
Lemma same_flat_ext st st' l : same st st' ->
  flat_map (fun i => enc_ext (st i)) l = flat_map (fun i => enc_ext (st' i)) l.
Proof.
  intros H. induction l; cbn [flat_map]; [reflexivity|]. rewrite IHl. unfold enc_ext.
  rewrite (proj1 (H a)). reflexivity.
Qed.

(** ** The sequence of symbols delivered by GetExt *)
Inductive Pull (exts : list nat) : store -> readext -> list nat -> store -> Z -> Prop :=
| Pull_nil st r st' r' : GetExt exts st r = (None, st', r') -> Pull exts st r [] st' (rx_index r')
| Pull_cons st r s st1 r1 l st2 i :
    GetExt exts st r = (Some s, st1, r1) -> Pull exts st1 r1 l st2 i -> Pull exts st r (s :: l) st2 i.

Lemma Pull_eq exts st1 r1 st2 r2 l st' i :
  GetExt exts st1 r1 = GetExt exts st2 r2 -> Pull exts st1 r1 l st' i -> Pull exts st2 r2 l st' i.
Proof.
  intros E P. inversion P; subst.
  - eapply Pull_nil. rewrite <- E. eassumption.
  - eapply Pull_cons; [rewrite <- E; eassumption|assumption].
Qed.

Lemma get_alt_same st p : forall index s st' p' i, get_alt st p index = (s, st', p', i) -> same st st'.
Proof.
  induction p as [|x p IH]; intros index s st' p' i E; cbn [get_alt] in E.
  - injection E as <- <- <- <-. apply same_refl.
  - destruct (s_iscomm (st x)); [eauto|]. destruct (s_altname (st x)) as [a|]; [|eauto].
    destruct (s_included (st a)); [eauto|]. injection E as <- <- <- <-. apply same_upd. repeat split.
Qed.
Lemma get_ext_same st p : forall index s st' p' i, get_ext st p index = (s, st', p', i) -> same st st'.
Proof.
  induction p as [|x p IH]; intros index s st' p' i E; cbn [get_ext] in E.
  - injection E as <- <- <- <-. apply same_refl.
  - destruct (s_iscomm (st x) || s_weak (st x)); [eauto|]. injection E as <- <- <- <-. apply same_upd. repeat split.
Qed.
Lemma GetExt_same exts st r s st' r' : GetExt exts st r = (s, st', r') -> same st st'.
Proof.
  unfold GetExt. destruct (rx_method r =? 0).
  - destruct (get_alt st (rx_p r) (rx_index r)) as [[[s0 st0] p0] i0] eqn:E.
    apply get_alt_same in E. destruct s0; intros H.
    + injection H as <- <- <-. exact E.
    + destruct (get_ext st0 exts i0) as [[[s1 st1] p1] i1] eqn:E1. injection H as <- <- <-.
      apply get_ext_same in E1. eapply same_trans; eassumption.
  - destruct (get_ext st (rx_p r) (rx_index r)) as [[[s1 st1] p1] i1] eqn:E1. intros H. injection H as <- <- <-.
    apply get_ext_same in E1. exact E1.
Qed.
Lemma Pull_same exts st r l st' i : Pull exts st r l st' i -> same st st'.
Proof.
  induction 1.
  - eapply GetExt_same; eassumption.
  - eapply same_trans; [eapply GetExt_same|]; eassumption.
Qed.

(** ** Records *)
Definition pend (exts : list nat) (st : store) (r : readext) (cur : option nat) (l : list nat) (st' : store) (i : Z) : Prop :=
  match cur with
  | None => l = [] /\ st' = st /\ i = rx_index r
  | Some s => exists l', l = s :: l' /\ Pull exts st r l' st' i
  end.

Lemma extdef_groups exts fuel : forall st r cur nb data l st' i,
  (forall j, name_ok (s_name (st j))) ->
  data = flat_map (fun i => enc_ext (st i)) nb -> zlen data <= 1019 ->
  pend exts st r cur l st' i -> (budget nb l <= fuel)%nat ->
  exists groups, extdef_loop fuel exts st r cur data = Ok (map (ext_rec st) groups, st', i) /\
    concat groups = nb ++ l /\ Forall (fun g => zlen (r_data (ext_rec st g)) <= 1019) groups.
Proof.
  induction fuel as [|fuel IH]; intros st r cur nb data l st' i NM D L P F.
  { unfold budget in F. destruct nb, l; cbn [length] in F; lia. }
  assert (FL : forall g, g = nb -> Forall (fun g => zlen (r_data (ext_rec st g)) <= 1019) [g]).
  { intros g ->. apply Forall_cons; [|apply Forall_nil]. cbn [ext_rec mk_rec r_data]. rewrite <- D. exact L. }
  cbn [extdef_loop]. destruct cur as [s|]; cbn [pend] in P.
  - destruct P as (l' & -> & P). pose proof (NM s) as [_ N1]. pose proof (zlen_nonneg (s_name (st s))).
    destruct (zlen data + zlen (s_name (st s)) + 2 >=? MAX_EXT_LENGTH) eqn:FT; unfold MAX_EXT_LENGTH in FT.
    + assert (NE : nb <> []). { intros ->. cbn [flat_map] in D. subst data. change (zlen (@nil Z)) with 0 in FT. lia. }
      destruct (IH st r (Some s) [] [] (s :: l') st' i NM eq_refl) as (groups & E & CC & SZ).
      { change (zlen (@nil Z)) with 0. lia. }
      { exists l'. auto. }
      { unfold budget in *. destruct nb; [congruence|]. lia. }
      assert (NZ : (zlen data =? 0) = false) by lia.
      rewrite NZ, E. cbn [bindr negb]. exists (nb :: groups). cbn [map app concat]. rewrite CC.
      split; [unfold ext_rec at 2; rewrite <- D; reflexivity|]. split; [reflexivity|].
      apply Forall_cons; [|exact SZ]. exact (Forall_inv (FL nb eq_refl)).
    + set (data' := data ++ [wrap 8 (zlen (s_name (st s)))] ++ s_name (st s) ++ [0]).
      assert (D' : data' = flat_map (fun i => enc_ext (st i)) (nb ++ [s])).
      { rewrite flat_map_app. cbn [flat_map]. rewrite app_nil_r, <- D. reflexivity. }
      assert (L' : zlen data' <= 1019).
      { change data' with (data ++ enc_ext (st s)). rewrite zlen_app, enc_ext_len. lia. }
      destruct (GetExt exts st r) as [[cur1 st1] r1] eqn:G.
      pose proof (GetExt_same _ _ _ _ _ _ G) as SM.
      assert (P1 : pend exts st1 r1 cur1 l' st' i).
      { inversion P; subst; match goal with HH : GetExt exts st r = _ |- _ => rewrite G in HH; injection HH as -> -> -> end.
        - cbn [pend]. auto.
        - cbn [pend]. eauto. }
      destruct (IH st1 r1 cur1 (nb ++ [s]) data' l' st' i) as (groups & E & CC & SZ).
      { intros j. rewrite <- (proj1 (SM j)). apply NM. }
      { rewrite D'. apply same_flat_ext. exact SM. }
      { exact L'. }
      { exact P1. }
      { unfold budget in *. cbn [length] in F. destruct nb; cbn [app]; lia. }
      assert (GR : forall g, ext_rec st g = ext_rec st1 g).
      { intros g. unfold ext_rec. rewrite (same_flat_ext _ _ g SM). reflexivity. }
      exists groups. rewrite E. split; [f_equal; f_equal; f_equal; apply map_ext; intros; symmetry; apply GR|].
      split; [rewrite CC, <- app_assoc; reflexivity|].
      eapply Forall_impl; [|exact SZ]. cbn beta. intros g. rewrite GR. auto.
  - destruct P as (-> & -> & ->). rewrite app_nil_r.
    destruct (zlen data =? 0) eqn:Z0; cbn [negb].
    + exists []. assert (nb = []).
      { destruct nb as [|x nb]; [reflexivity|]. cbn [flat_map] in D. subst data. rewrite zlen_app, enc_ext_len in Z0.
        pose proof (zlen_nonneg (s_name (st x))). pose proof (zlen_nonneg (flat_map (fun i => enc_ext (st i)) nb)). lia. }
      subst nb. split; [reflexivity|]. split; [reflexivity|apply Forall_nil].
    + exists [nb]. cbn [map concat]. rewrite app_nil_r. unfold ext_rec at 1. rewrite <- D.
      split; [reflexivity|]. split; [reflexivity|apply FL; reflexivity].
Qed.

(** ** What GetExt delivers from the start *)
Definition nonweak (st : store) (p : list nat) : list nat :=
  filter (fun i => negb (s_iscomm (st i) || s_weak (st i))) p.
Fixpoint asg1 (st : store) (l : list nat) (index : Z) : store :=
  match l with
  | [] => st
  | i :: l => asg1 (upd st i (set_idx1 (st i) index)) l (index + 1)
  end.
Fixpoint alts (inc : nat -> bool) (st : store) (p : list nat) : list nat :=
  match p with
  | [] => []
  | i :: p =>
      match s_iscomm (st i), s_altname (st i) with
      | false, Some a =>
          if inc a then alts inc st p
          else a :: alts (fun x => if Nat.eqb x a then true else inc x) st p
      | _, _ => alts inc st p
      end
  end.
Fixpoint asg2 (st : store) (l : list nat) (index : Z) : store :=
  match l with
  | [] => st
  | i :: l => asg2 (upd st i (set_idx2 (st i) index true)) l (index + 1)
  end.

Lemma nonweak_same st st' p : same st st' -> nonweak st p = nonweak st' p.
Proof.
  intros H. unfold nonweak. apply filter_ext. intros i. destruct (H i) as (_ & -> & -> & _). reflexivity.
Qed.
Lemma alts_same st st' p : same st st' -> forall inc inc', (forall x, inc x = inc' x) -> alts inc st p = alts inc' st' p.
Proof.
  intros H. induction p as [|i p IH]; intros inc inc' E; cbn [alts]; [reflexivity|].
  destruct (H i) as (_ & -> & _ & _ & _ & -> & _).
  destruct (s_iscomm (st' i)); [auto|]. destruct (s_altname (st' i)) as [a|]; [|auto].
  rewrite E. destruct (inc' a); [auto|]. f_equal. apply IH. intros x. destruct (Nat.eqb x a); auto.
Qed.

Lemma pull1 exts p : forall st index, 0 <= index -> index + zlen p < 2 ^ 16 ->
  Pull exts st {| rx_p := p; rx_index := index; rx_method := 1 |}
    (nonweak st p) (asg1 st (nonweak st p) index) (index + zlen (nonweak st p)).
Proof.
  induction p as [|i p IH]; intros st index I1 I2.
  - cbn [nonweak filter asg1]. rewrite (@zlen_nil nat), Z.add_0_r.
    apply (Pull_nil exts st _ st {| rx_p := []; rx_index := index; rx_method := 1 |}). reflexivity.
  - rewrite zlen_cons in I2. unfold nonweak at 1 2 3. cbn [filter]. fold (nonweak st p).
    destruct (s_iscomm (st i) || s_weak (st i)) eqn:W; cbn [negb].
    + eapply Pull_eq; [|apply IH; lia]. unfold GetExt. cbn [rx_method rx_p rx_index Z.eqb get_ext]. rewrite W. reflexivity.
    + assert (SM : same st (upd st i (set_idx1 (st i) index))) by (apply same_upd; repeat split).
      pose proof (zlen_nonneg p) as ZP.
      specialize (IH (upd st i (set_idx1 (st i) index)) (index + 1) ltac:(lia) ltac:(lia)).
      rewrite <- (nonweak_same _ _ p SM) in IH.
      rewrite zlen_cons, Z.add_assoc. cbn [asg1].
      eapply Pull_cons; [|exact IH].
      unfold GetExt. cbn [rx_method rx_p rx_index Z.eqb get_ext]. rewrite W.
      rewrite wrap_small by lia. reflexivity.
Qed.

Lemma pull0 exts p : forall inc st index, 0 <= index -> index + zlen p + zlen exts < 2 ^ 16 ->
  (forall x, inc x = s_included (st x)) ->
  let al := alts inc st p in
  let nw := nonweak st exts in
  Pull exts st {| rx_p := p; rx_index := index; rx_method := 0 |}
    (al ++ nw) (asg1 (asg2 st al index) nw (index + zlen al)) (index + zlen al + zlen nw).
Proof.
  induction p as [|i p IH]; intros inc st index I1 I2 INC; cbn zeta.
  - cbn [alts asg2 app]. rewrite (@zlen_nil nat), !Z.add_0_r. rewrite (@zlen_nil nat) in I2.
    eapply Pull_eq; [|apply pull1; lia].
    unfold GetExt. cbn [rx_method rx_p rx_index Z.eqb get_alt]. reflexivity.
  - rewrite zlen_cons in I2. cbn [alts].
    assert (SK : (s_iscomm (st i) = true \/ s_altname (st i) = None \/ exists a, s_altname (st i) = Some a /\ inc a = true) ->
      GetExt exts st {| rx_p := p; rx_index := index; rx_method := 0 |} =
      GetExt exts st {| rx_p := i :: p; rx_index := index; rx_method := 0 |}).
    { intros H. unfold GetExt. cbn [rx_method rx_p rx_index Z.eqb get_alt].
      destruct (s_iscomm (st i)); [reflexivity|].
      destruct H as [H|[->|(a & -> & H)]]; [discriminate|reflexivity|]. rewrite <- INC, H. reflexivity. }
    destruct (s_iscomm (st i)) eqn:C.
    { eapply Pull_eq; [apply SK; auto|]. apply IH; auto; lia. }
    destruct (s_altname (st i)) as [a|] eqn:AN.
    2:{ eapply Pull_eq; [apply SK; auto|]. apply IH; auto; lia. }
    destruct (inc a) eqn:IA.
    { eapply Pull_eq; [apply SK; eauto|]. apply IH; auto; lia. }
    assert (SM : same st (upd st a (set_idx2 (st a) index true))) by (apply same_upd; repeat split).
    pose proof (zlen_nonneg p) as ZP. pose proof (zlen_nonneg exts) as ZE.
    specialize (IH (fun x => if Nat.eqb x a then true else inc x) (upd st a (set_idx2 (st a) index true)) (index + 1) ltac:(lia) ltac:(lia)).
    cbn zeta in IH. rewrite <- (nonweak_same _ _ exts SM) in IH.
    rewrite <- (alts_same _ _ p SM _ _ (fun x => eq_refl)) in IH.
    cbn [app asg2]. rewrite zlen_cons, !Z.add_assoc.
    eapply Pull_cons; [|apply IH].
    + unfold GetExt. cbn [rx_method rx_p rx_index Z.eqb get_alt]. rewrite C, AN, <- INC, IA.
      rewrite wrap_small by lia. reflexivity.
    + intros x. unfold upd. destruct (Nat.eqb_spec x a); [reflexivity|apply INC].
Qed.

(** ** Facts about the assignments *)
Lemma alts_in st p : forall inc a, In a (alts inc st p) <->
  inc a = false /\ exists i, In i p /\ s_iscomm (st i) = false /\ s_altname (st i) = Some a.
Proof.
  induction p as [|i p IH]; intros inc a; cbn [alts].
  - split; [intros []|]. intros (_ & i & [] & _).
  - assert (SKIP : ~ (s_iscomm (st i) = false /\ s_altname (st i) = Some a /\ inc a = false) ->
      (inc a = false /\ (exists j, In j p /\ s_iscomm (st j) = false /\ s_altname (st j) = Some a)) <->
      (inc a = false /\ (exists j, In j (i :: p) /\ s_iscomm (st j) = false /\ s_altname (st j) = Some a))).
    { intros N. split; intros (A & j & B & C & D); (split; [exact A|]); exists j.
      - split; [right; exact B|auto].
      - destruct B as [<-|B]; [exfalso; apply N; auto|auto]. }
    destruct (s_iscomm (st i)) eqn:C. { rewrite IH. apply SKIP. intros (X & _). discriminate. }
    destruct (s_altname (st i)) as [b|] eqn:AN. 2:{ rewrite IH. apply SKIP. intros (_ & X & _). discriminate. }
    destruct (inc b) eqn:IB. { rewrite IH. apply SKIP. intros (_ & X & Y). congruence. }
    cbn [In]. rewrite IH. split.
    + intros [->|(A & j & B & D)].
      * split; [exact IB|]. exists i. split; [left; reflexivity|auto].
      * destruct (Nat.eqb_spec a b); [discriminate|]. split; [exact A|]. exists j. split; [right; exact B|exact D].
    + intros (A & j & B & D & E). destruct (Nat.eqb_spec a b) as [->|NE]; [left; reflexivity|right].
      split; [exact A|]. exists j. split; [|auto]. destruct B as [<-|B]; [congruence|exact B].
Qed.
Lemma alts_nodup st p : forall inc, NoDup (alts inc st p).
Proof.
  induction p as [|i p IH]; intros inc; cbn [alts]; [constructor|].
  destruct (s_iscomm (st i)); [auto|]. destruct (s_altname (st i)) as [b|]; [|auto].
  destruct (inc b) eqn:IB; [auto|]. constructor; [|auto].
  rewrite alts_in. rewrite Nat.eqb_refl. intros (X & _). discriminate.
Qed.
Lemma alts_len st p : forall inc, (length (alts inc st p) <= length p)%nat.
Proof.
  induction p as [|i p IH]; intros inc; cbn [alts length]; [lia|].
  destruct (s_iscomm (st i)); [specialize (IH inc); lia|]. destruct (s_altname (st i)) as [b|]; [|specialize (IH inc); lia].
  destruct (inc b); [specialize (IH inc); lia|]. cbn [length]. specialize (IH (fun x => if Nat.eqb x b then true else inc x)). lia.
Qed.

Lemma asg1_out l : forall st index i, ~ In i l -> asg1 st l index i = st i.
Proof.
  induction l as [|x l IH]; intros st index i H; cbn [asg1]; [reflexivity|].
  rewrite IH by (intros Q; apply H; right; exact Q). apply upd_neq. intros ->. apply H. left; reflexivity.
Qed.
Lemma asg2_out l : forall st index i, ~ In i l -> asg2 st l index i = st i.
Proof.
  induction l as [|x l IH]; intros st index i H; cbn [asg2]; [reflexivity|].
  rewrite IH by (intros Q; apply H; right; exact Q). apply upd_neq. intros ->. apply H. left; reflexivity.
Qed.
Lemma asg1_at l : forall st index k i, NoDup l -> 0 <= index -> index + zlen l < 2 ^ 16 ->
  nth_error l k = Some i -> s_idx1 (asg1 st l index i) = index + Z.of_nat k.
Proof.
  induction l as [|x l IH]; intros st index k i ND I1 I2 K; [destruct k; discriminate|].
  apply NoDup_cons_iff in ND as [NI ND]. rewrite zlen_cons in I2. pose proof (zlen_nonneg l).
  cbn [asg1]. destruct k; cbn [nth_error] in K.
  - injection K as <-. rewrite asg1_out by exact NI. rewrite upd_eq. cbn [set_idx1 s_idx1].
    rewrite wrap_small by lia. lia.
  - rewrite IH with (k := k) by (auto; lia). lia.
Qed.
Lemma asg2_at l : forall st index k i, NoDup l -> 0 <= index -> index + zlen l < 2 ^ 16 ->
  nth_error l k = Some i -> s_idx2 (asg2 st l index i) = index + Z.of_nat k.
Proof.
  induction l as [|x l IH]; intros st index k i ND I1 I2 K; [destruct k; discriminate|].
  apply NoDup_cons_iff in ND as [NI ND]. rewrite zlen_cons in I2. pose proof (zlen_nonneg l).
  cbn [asg2]. destruct k; cbn [nth_error] in K.
  - injection K as <-. rewrite asg2_out by exact NI. rewrite upd_eq. cbn [set_idx2 s_idx2].
    rewrite wrap_small by lia. lia.
  - rewrite IH with (k := k) by (auto; lia). lia.
Qed.
Lemma asg1_idx2 l : forall st index i, s_idx2 (asg1 st l index i) = s_idx2 (st i).
Proof.
  induction l as [|x l IH]; intros st index i; cbn [asg1]; [reflexivity|]. rewrite IH.
  unfold upd. destruct (Nat.eqb_spec i x); subst; reflexivity.
Qed.
Lemma asg1_same l : forall st index, same st (asg1 st l index).
Proof.
  induction l as [|x l IH]; intros st index; cbn [asg1]; [apply same_refl|].
  eapply same_trans; [|apply IH]. apply same_upd. repeat split.
Qed.
Lemma asg2_same l : forall st index, same st (asg2 st l index).
Proof.
  induction l as [|x l IH]; intros st index; cbn [asg2]; [apply same_refl|].
  eapply same_trans; [|apply IH]. apply same_upd. repeat split.
Qed.

Lemma reset_ext p : forall st, same st (reset_loop st p) /\
  (forall i, s_external (st i) = true -> reset_loop st p i = st i) /\
  (forall i a, In i p -> s_iscomm (st i) = false -> s_altname (st i) = Some a -> s_external (st a) = false ->
     s_idx1 (reset_loop st p a) = 0 /\ s_idx2 (reset_loop st p a) = 0).
Proof.
  assert (KEEP0 : forall p st a, s_idx1 (st a) = 0 /\ s_idx2 (st a) = 0 ->
            s_idx1 (reset_loop st p a) = 0 /\ s_idx2 (reset_loop st p a) = 0).
  { clear. induction p as [|i p IH]; intros st a H; cbn [reset_loop]; [exact H|].
    destruct (s_iscomm (st i)); [auto|]. destruct (s_altname (st i)) as [b|]; [|auto].
    destruct (s_external (st b)); [auto|]. apply IH. unfold upd. destruct (Nat.eqb_spec a b); [|exact H].
    split; reflexivity. }
  induction p as [|i p IH]; intros st; cbn [reset_loop].
  - split; [apply same_refl|]. split; [auto|]. intros i a [].
  - assert (SKIP : forall P : Prop, (forall a, s_iscomm (st i) = false -> s_altname (st i) = Some a -> s_external (st a) = false -> False) ->
       same st (reset_loop st p) /\ (forall j, s_external (st j) = true -> reset_loop st p j = st j) /\
       (forall j a, In j (i :: p) -> s_iscomm (st j) = false -> s_altname (st j) = Some a -> s_external (st a) = false ->
          s_idx1 (reset_loop st p a) = 0 /\ s_idx2 (reset_loop st p a) = 0)).
    { intros _ H. destruct (IH st) as (A & B & C). split; [exact A|]. split; [exact B|].
      intros j a [<-|J] X Y Z; [exfalso; eapply H; eassumption|eapply C; eassumption]. }
    destruct (s_iscomm (st i)) eqn:C; [apply (SKIP True); congruence|].
    destruct (s_altname (st i)) as [b|] eqn:AN; [|apply (SKIP True); congruence].
    destruct (s_external (st b)) eqn:EX; [apply (SKIP True); congruence|]. clear SKIP.
    set (st1 := upd st b _). assert (SM : same st st1) by (apply same_upd; repeat split).
    destruct (IH st1) as (A & B & D). split; [eapply same_trans; eassumption|]. split.
    + intros j J. rewrite B.
      * unfold st1. apply upd_neq. intros ->. congruence.
      * destruct (SM j) as (_ & _ & _ & X & _). congruence.
    + intros j a J X Y W.
      destruct J as [<-|J].
      * assert (a = b) by congruence. subst a. apply KEEP0. unfold st1. rewrite upd_eq. split; reflexivity.
      * destruct (SM j) as (_ & X1 & _ & _ & _ & X2 & _). destruct (SM a) as (_ & _ & _ & X3 & _).
        apply (D j a J); congruence.
Qed.

(** ** Tables *)
Lemma ext_rec_ok st g : (forall i, name_ok (s_name (st i))) -> rec_ok (ext_rec st g).
Proof.
  intros H. unfold rec_ok, ext_rec, mk_rec. cbn [r_is32 r_data r_cmd r_d].
  split; [left; reflexivity|]. split.
  - apply flat_map_byte. apply Forall_forall. intros i _. apply enc_ext_byte. apply H.
  - left. split; [|reflexivity]. unfold CMD_EXTDEF. cbn; auto 20.
Qed.
Lemma ext_groups_table st groups : (forall i, name_ok (s_name (st i))) ->
  external_table (map meaning (map (ext_rec st) groups)) = Some (map (fun i => Ext (s_name (st i))) (concat groups)).
Proof.
  intros H. unfold external_table. rewrite map_map. apply concat_opt_groups. intros g I.
  cbn [meaning ext_rec mk_rec r_d r_cmd r_is32 r_data CMD_EXTDEF].
  rewrite (rd_many_concat rd_ext1 (fun i => enc_ext (st i)) (fun i => s_name (st i))).
  - cbn [bindo]. rewrite map_map. reflexivity.
  - intros i r _. apply enc_ext_read. apply H.
  - discriminate.
  - lia.
Qed.

Lemma rec_index_read v r : 0 <= v < 2 ^ 15 ->
  rd_index (rec_index v ++ r) = Some (v, r) /\ Forall is_byte (rec_index v) /\ rec_index v <> [] /\ zlen (rec_index v) <= 2.
Proof.
  intros H. change (2 ^ 15) with 32768 in H. unfold rec_index. rewrite land_ff.
  destruct (v >? 127) eqn:E.
  - rewrite lor_0x80_hi by (change (2 ^ 15) with 32768; lia).
    assert (W1 : wrap 8 (128 + v / 256) = 128 + v / 256) by (apply wrap_small; change (2 ^ 8) with 256; lia).
    assert (W2 : wrap 8 (v mod 256) = v mod 256) by (apply wrap_small; change (2 ^ 8) with 256; lia).
    rewrite W1, W2. split; [|split; [|split; [discriminate|vm_compute; discriminate]]].
    + unfold rd_index. cbn [app]. replace (128 + v / 256 <? 128) with false by lia. f_equal. f_equal. lia.
    + apply Forall_cons; [unfold is_byte; lia|]. apply Forall_cons; [unfold is_byte; lia|apply Forall_nil].
  - assert (W2 : wrap 8 (v mod 256) = v) by (unfold wrap; change (2 ^ 8) with 256; lia).
    rewrite W2. split; [|split; [|split; [discriminate|vm_compute; discriminate]]].
    + unfold rd_index. cbn [app]. replace (v <? 128) with true by lia. reflexivity.
    + apply Forall_cons; [unfold is_byte; lia|apply Forall_nil].
Qed.

Definition with_alt (st : store) (p : list nat) : list nat :=
  filter (fun i => negb (s_iscomm (st i)) && match s_altname (st i) with Some _ => true | None => false end) p.

Lemma wkext_ok st p :
  (forall i a, In i p -> s_iscomm (st i) = false -> s_altname (st i) = Some a ->
     0 <= s_idx1 (st i) < 2 ^ 15 /\ 0 <= s_idx2 (st a) < 2 ^ 15) ->
  Forall rec_ok (wkext_loop st p) /\ Forall (fun r => zlen (r_data r) <= 4) (wkext_loop st p) /\
  external_table (map meaning (wkext_loop st p)) = Some [] /\
  exists wt, weak_table (map meaning (wkext_loop st p)) = Some wt /\
    Forall2 (fun i wd => exists a, s_altname (st i) = Some a /\ fst wd = s_idx1 (st i) /\ snd wd = s_idx2 (st a))
      (with_alt st p) wt.
Proof.
  induction p as [|i p IH]; intros H; cbn [wkext_loop with_alt filter].
  - split; [apply Forall_nil|]. split; [apply Forall_nil|]. split; [reflexivity|]. exists []. split; [reflexivity|constructor].
  - destruct IH as (A & B & C & wt & D & E); [intros; eapply H; [right|..]; eassumption|].
    destruct (s_iscomm (st i)) eqn:CI; cbn [negb andb].
    { split; [exact A|]. split; [exact B|]. split; [exact C|]. exists wt. split; assumption. }
    destruct (s_altname (st i)) as [a|] eqn:AN; [|split; [exact A|]; split; [exact B|]; split; [exact C|]; exists wt; split; assumption].
    destruct (H i a (or_introl eq_refl) CI AN) as [R1 R2].
    pose proof (rec_index_read (s_idx1 (st i)) (rec_index (s_idx2 (st a)) ++ []) R1) as (P1 & P2 & P3 & P4).
    pose proof (rec_index_read (s_idx2 (st a)) [] R2) as (Q1 & Q2 & Q3 & Q4).
    split; [|split; [|split]].
    + apply Forall_cons; [|exact A]. unfold rec_ok. cbn [r_is32 r_data r_cmd r_d].
      split; [left; reflexivity|]. split; [apply Forall_app; split; assumption|].
      split; [reflexivity|]. unfold u8, CMT_TNP, CMT_WKEXT. change (2 ^ 8) with 256. lia.
    + apply Forall_cons; [|exact B]. cbn [r_data]. rewrite zlen_app. lia.
    + cbn [map external_table concat_opt meaning r_d bindo]. fold (external_table (map meaning (wkext_loop st p))).
      unfold external_table in C. cbn [map concat_opt]. unfold external_table. cbn [concat_opt].
      rewrite C. reflexivity.
    + exists ((s_idx1 (st i), s_idx2 (st a)) :: wt). split.
      * unfold weak_table in *. cbn [map concat_opt meaning r_d r_data CMT_TNP CMT_WKEXT].
        set (d := rec_index (s_idx1 (st i)) ++ rec_index (s_idx2 (st a))).
        assert (RD : rd_many (fun l => bindo (rd_index l) (fun x => match x with (u, l0) => bindo (rd_index l0) (fun x0 => match x0 with (v, l1) => Some (u, v, l1) end) end)) (length d) d
                     = Some [(s_idx1 (st i), s_idx2 (st a))]).
        { pose proof (rd_many_concat
             (fun l => bindo (rd_index l) (fun x => match x with (u, l0) => bindo (rd_index l0) (fun x0 => match x0 with (v, l1) => Some (u, v, l1) end) end))
             (fun _ : unit => d) (fun _ => (s_idx1 (st i), s_idx2 (st a))) [tt]) as RM.
          cbn [flat_map map] in RM. rewrite app_nil_r in RM. apply RM; [|intros _ _|lia].
          - intros _ r _. unfold d. rewrite <- app_assoc.
            rewrite (proj1 (rec_index_read (s_idx1 (st i)) (rec_index (s_idx2 (st a)) ++ r) R1)). cbn [bindo].
            rewrite (proj1 (rec_index_read (s_idx2 (st a)) r R2)). reflexivity.
          - unfold d. destruct (rec_index (s_idx1 (st i))); [congruence|discriminate]. }
        change (match 128 with _ => rd_many (fun l => bindo (rd_index l) (fun x => match x with (u, l0) => bindo (rd_index l0) (fun x0 => match x0 with (v, l1) => Some (u, v, l1) end) end)) (length d) d end)
          with (rd_many (fun l => bindo (rd_index l) (fun x => match x with (u, l0) => bindo (rd_index l0) (fun x0 => match x0 with (v, l1) => Some (u, v, l1) end) end)) (length d) d).
        rewrite RD. cbn [bindo]. rewrite D. reflexivity.
      * constructor; [|exact E]. exists a. auto.
Qed.

Theorem extdef_correct exts st :
  NoDup exts -> (forall i, name_ok (s_name (st i))) -> 2 * zlen exts + 1 < 2 ^ 15 ->
  (forall i, In i exts -> s_external (st i) = true) ->
  (forall i a, In i exts -> s_iscomm (st i) = false -> s_altname (st i) = Some a ->
     s_weak (st i) = false /\ s_included (st a) = false) ->
  exists recs st' index' tbl wt alt,
    omf_write_extdef exts st = Ok (recs, st', index') /\
    Forall rec_ok recs /\ Forall (fun r => zlen (r_data r) <= 1019) recs /\
    external_table (map meaning recs) = Some tbl /\
    tbl = map (fun i => Ext (s_name (st i))) (alt ++ nonweak st exts) /\
    NoDup alt /\
    (forall a, In a alt <-> exists i, In i exts /\ s_iscomm (st i) = false /\ s_altname (st i) = Some a) /\
    index' = 1 + zlen tbl /\ same st st' /\
    (forall i, In i exts -> s_iscomm (st i) = false -> s_weak (st i) = false ->
       1 <= s_idx1 (st' i) /\ nth_error tbl (Z.to_nat (s_idx1 (st' i) - 1)) = Some (Ext (s_name (st i)))) /\
    weak_table (map meaning recs) = Some wt /\
    Forall2 (fun i wd => exists a, s_altname (st i) = Some a /\
        1 <= fst wd /\ nth_error tbl (Z.to_nat (fst wd - 1)) = Some (Ext (s_name (st i))) /\
        1 <= snd wd /\ nth_error tbl (Z.to_nat (snd wd - 1)) = Some (Ext (s_name (st a))))
      (with_alt st exts) wt.
Proof.
  intros ND NM BD EX AL. change (2 ^ 15) with 32768 in BD.
  set (al := alts (fun x => s_included (st x)) st exts).
  set (nw := nonweak st exts).
  assert (LAL : zlen al <= zlen exts) by (unfold zlen; apply inj_le; apply alts_len).
  assert (LNW : zlen nw <= zlen exts).
  { unfold zlen, nw, nonweak. apply inj_le. clear. induction exts; cbn [filter length]; [lia|].
    destruct (negb (s_iscomm (st a) || s_weak (st a))); cbn [length]; lia. }
  pose proof (zlen_nonneg al) as PAL. pose proof (zlen_nonneg nw) as PNW.
  assert (NDA : NoDup al) by apply alts_nodup.
  assert (NDN : NoDup nw) by (apply NoDup_filter; exact ND).
  pose proof (pull0 exts exts (fun x => s_included (st x)) st 1 ltac:(lia) ltac:(change (2 ^ 16) with 65536; lia) (fun x => eq_refl)) as P.
  cbn zeta in P. fold al nw in P.
  set (st' := asg1 (asg2 st al 1) nw (1 + zlen al)) in *.
  assert (SM : same st st') by (eapply same_trans; [apply asg2_same|apply asg1_same]).
  unfold omf_write_extdef.
  destruct (GetExt exts st {| rx_p := exts; rx_index := 1; rx_method := 0 |}) as [[cur st1] r1] eqn:G.
  pose proof (GetExt_same _ _ _ _ _ _ G) as SM1.
  assert (PN : pend exts st1 r1 cur (al ++ nw) st' (1 + zlen al + zlen nw)).
  { inversion P as [a1 a2 a3 a4 GE E1 E2 E3 E4|a1 a2 s0 a3 a4 l0 a5 a6 GE PP E1 E2 E3 E4 E5]; rewrite G in GE; injection GE as -> -> ->; cbn [pend].
    - auto.
    - eexists. split; [reflexivity|]. exact PP. }
  destruct (extdef_groups exts (4 * length exts + 2) st1 r1 cur [] [] (al ++ nw) st' (1 + zlen al + zlen nw)) as (groups & E & CC & SZ).
  { intros j. rewrite <- (proj1 (SM1 j)). apply NM. }
  { reflexivity. }
  { change (zlen (@nil Z)) with 0. lia. }
  { exact PN. }
  { unfold budget. rewrite app_length. unfold zlen in LAL, LNW. destruct (al ++ nw); lia. }
  rewrite E. cbn [bindr]. cbn [app] in CC.
  assert (ID1 : forall i, In i exts -> s_iscomm (st i) = false -> s_weak (st i) = false ->
     exists k, nth_error (al ++ nw) k = Some i /\ s_idx1 (st' i) = 1 + Z.of_nat k /\ (k < length (al ++ nw))%nat).
  { intros i I C W.
    assert (IN : In i nw). { apply filter_In. split; [exact I|]. rewrite C, W. reflexivity. }
    apply In_nth_error in IN as [k K]. exists (length al + k)%nat.
    assert (KL : (k < length nw)%nat) by (apply nth_error_Some; congruence).
    split; [rewrite nth_error_app2 by lia; replace (length al + k - length al)%nat with k by lia; exact K|].
    split; [|rewrite app_length; lia].
    unfold st'. rewrite (asg1_at nw _ _ k i NDN) by (auto; change (2 ^ 16) with 65536; lia). unfold zlen. lia. }
  assert (ID2 : forall i a, In i exts -> s_iscomm (st i) = false -> s_altname (st i) = Some a ->
     exists k, nth_error (al ++ nw) k = Some a /\ s_idx2 (st' a) = 1 + Z.of_nat k /\ (k < length (al ++ nw))%nat).
  { intros i a I C A.
    assert (IN : In a al). { apply alts_in. split; [exact (proj2 (AL i a I C A))|]. exists i; auto. }
    apply In_nth_error in IN as [k K]. exists k.
    assert (KL : (k < length al)%nat) by (apply nth_error_Some; congruence).
    split; [rewrite nth_error_app1 by lia; exact K|].
    split; [|rewrite app_length; lia].
    unfold st'. rewrite asg1_idx2. rewrite (asg2_at al _ _ k a NDA) by (auto; change (2 ^ 16) with 65536; lia). lia. }
  assert (LT : zlen (al ++ nw) < 32767) by (rewrite zlen_app; lia).
  destruct (wkext_ok st' exts) as (W1 & W2 & W3 & wt & W4 & W5).
  { intros i a I C A. destruct (SM i) as (_ & X1 & _ & _ & _ & X2 & _). rewrite <- X1 in C. rewrite <- X2 in A.
    destruct (AL i a I C A) as [AW _].
    destruct (ID1 i I C AW) as (k & _ & -> & KL). destruct (ID2 i a I C A) as (k2 & _ & -> & KL2).
    unfold zlen in LT. change (2 ^ 15) with 32768. lia. }
  assert (TB : external_table (map meaning (map (ext_rec st1) groups)) = Some (map (fun i => Ext (s_name (st i))) (al ++ nw))).
  { rewrite ext_groups_table.
    - rewrite CC. f_equal. apply map_ext. intros i. rewrite (proj1 (SM1 i)). reflexivity.
    - intros i. rewrite <- (proj1 (SM1 i)). apply NM. }
  destruct (reset_ext exts st') as (RS1 & RS2 & _).
  eexists _, _, _, _, wt, al. split; [reflexivity|].
  split. { apply Forall_app. split; [|exact W1]. rewrite Forall_map. apply Forall_forall. intros g _. apply ext_rec_ok.
           intros i. rewrite <- (proj1 (SM1 i)). apply NM. }
  split. { apply Forall_app. split; [rewrite Forall_map; exact SZ|]. eapply Forall_impl; [|exact W2]. cbn beta. intros; lia. }
  split. { rewrite map_app. unfold external_table. erewrite concat_opt_app; [|exact TB|exact W3]. reflexivity. }
  rewrite app_nil_r. split; [reflexivity|]. split; [exact NDA|].
  split. { intros a. unfold al. rewrite alts_in. split.
           - intros (_ & H). exact H.
           - intros (i & I & C & A). split; [exact (proj2 (AL i a I C A))|]. exists i; auto. }
  split. { unfold zlen. rewrite map_length, app_length. lia. }
  split; [eapply same_trans; [exact SM|exact RS1]|].
  assert (EXT' : forall i, In i exts -> s_external (st' i) = true).
  { intros i I. destruct (SM i) as (_ & _ & _ & X & _). rewrite <- X. auto. }
  split.
  { intros i I C W. destruct (ID1 i I C W) as (k & K & V & KL). rewrite RS2 by auto. rewrite V. split; [lia|].
    replace (Z.to_nat (1 + Z.of_nat k - 1)) with k by lia. rewrite (map_nth_error _ _ _ K). reflexivity. }
  split. { rewrite map_app. unfold weak_table in *.
           rewrite (concat_opt_app _ _ _ [] wt); [reflexivity| |exact W4].
           apply concat_opt_none. rewrite map_map, Forall_map. apply Forall_forall. intros g _. reflexivity. }
  assert (WA : with_alt st exts = with_alt st' exts).
  { unfold with_alt. apply filter_ext. intros i. destruct (SM i) as (_ & -> & _ & _ & _ & -> & _). reflexivity. }
  assert (IN2 : Forall (fun i => In i exts /\ s_iscomm (st i) = false) (with_alt st exts)).
  { apply Forall_forall. intros i I. apply filter_In in I as [I Q]. split; [exact I|].
    destruct (s_iscomm (st i)); [discriminate|reflexivity]. }
  rewrite <- WA in W5. clear - W5 IN2 ID1 ID2 SM AL. induction W5 as [|i wd l wt' (a & A & F & S0) W5 IH]; constructor.
  - apply Forall_cons_iff in IN2 as [[I C] _].
    destruct (SM i) as (_ & _ & _ & _ & _ & X2 & _). rewrite <- X2 in A.
    destruct (AL i a I C A) as [AW _]. exists a. split; [exact A|].
    destruct (ID1 i I C AW) as (k & K & V & KL). destruct (ID2 i a I C A) as (k2 & K2 & V2 & KL2).
    rewrite F, S0, V, V2.
    replace (Z.to_nat (1 + Z.of_nat k - 1)) with k by lia. replace (Z.to_nat (1 + Z.of_nat k2 - 1)) with k2 by lia.
    rewrite (map_nth_error _ _ _ K), (map_nth_error _ _ _ K2). split; [lia|]. split; [reflexivity|]. split; [lia|reflexivity].
  - apply IH. apply Forall_cons_iff in IN2 as [_ IN2]. exact IN2.
Qed.
