From Coq Require Import Permutation Sorted.
From Verif Require Import Base Sort_Model Sort_Spec Sort_Proofs Data_Proofs Bin_Model Bin_Spec Bin_Proofs BinFix_Proofs.

(** * writing *)
Lemma write_at_byte : forall pos bs file p, 0 <= pos -> byte_at (write_at pos bs file) p = if (pos <=? p) && (p <? pos + zlen bs) then nth (Z.to_nat (p - pos)) bs 0 else byte_at file p.
Proof.
  intros pos bs file p P. unfold byte_at. destruct (Z.ltb_spec p 0) as [N|N].
  { destruct (Z.leb_spec pos p); [lia|]. reflexivity. }
  unfold write_at. pose proof (zlen_nonneg bs) as ZB. pose proof (zlen_nonneg file) as ZF. rewrite app_assoc.
  set (H := firstn (Z.to_nat pos) file ++ repeat 0 (Z.to_nat (pos - zlen file))).
  assert (length H = Z.to_nat pos) as LH by (unfold H; rewrite app_length, firstn_length, repeat_length; unfold zlen in *; lia).
  assert (forall i, (i < Z.to_nat pos)%nat -> nth i H 0 = nth i file 0) as NH.
  { intros i I'. unfold H. destruct (Nat.lt_ge_cases i (length (firstn (Z.to_nat pos) file))) as [A|A].
    - rewrite app_nth1 by exact A. rewrite nth_firstn'. destruct (Nat.ltb_spec i (Z.to_nat pos)); [reflexivity|lia].
    - rewrite app_nth2 by exact A. rewrite firstn_length in A. rewrite (nth_overflow file) by lia. apply nth_repeat. }
  destruct (Z.leb_spec pos p) as [A|A]; cbn [andb].
  - rewrite app_nth2 by lia. rewrite LH. destruct (Z.ltb_spec p (pos + zlen bs)) as [B|B].
    + rewrite app_nth1 by (unfold zlen in B; lia). f_equal. lia.
    + rewrite app_nth2 by (unfold zlen in B; lia). rewrite nth_skipn'. f_equal. unfold zlen in *. lia.
  - rewrite app_nth1 by lia. apply NH. lia.
Qed.
Lemma write_at_length : forall pos bs file, 0 <= pos -> zlen (write_at pos bs file) = Z.max (zlen file) (pos + zlen bs).
Proof.
  intros pos bs file P. unfold write_at, zlen. rewrite !app_length, firstn_length, repeat_length, skipn_length. lia.
Qed.
Definition buf_of (bufs : list (nat * option (list Z))) (k : nat) (b : list Z) : Prop := In (k, Some b) bufs.
Definition disjoint (im : image) (ks : list nat) : Prop :=
  forall i j p, In i ks -> In j ks -> i <> j -> real (segs im) i = true -> real (segs im) j = true -> occupies im i p -> occupies im j p -> False.
Definition fits (im : image) (ks : list nat) : Prop :=
  forall k, In k ks -> real (segs im) k = true -> 0 <= s_fileofs (segment im k) /\ 0 <= extent (segment im k) < 2 ^ 32.
Lemma existsb_written : forall im (bufs : list (nat * option (list Z))), existsb (fun '(d, _) => negb (s_written (segment im d) =? 0)) bufs = true <-> exists d, In d (map fst bufs) /\ s_written (segment im d) <> 0.
Proof.
  intros im bufs. rewrite existsb_exists. split.
  - intros ([d b] & I' & N). exists d. split; [apply in_map_iff; exists (d, b); auto|]. apply negb_true_iff, Z.eqb_neq in N. exact N.
  - intros (d & I' & N). apply in_map_iff in I'. destruct I' as ([d' b] & E & I'). cbn in E. subst d'. exists (d, b). split; [exact I'|]. apply negb_true_iff, Z.eqb_neq. exact N.
Qed.
(** what is written, one entry *)
Definition goes (im : image) (k : nat) (r : list (nat * option (list Z))) : Prop :=
  real (segs im) k = true /\ 0 < extent (segment im k) /\ (s_written (segment im k) <> 0 \/ exists d, In d (map fst r) /\ s_written (segment im d) <> 0).
Lemma write_step : forall im k buf r file, (real (segs im) k = true -> 0 <= extent (segment im k) < 2 ^ 32) ->
  (exists b, buf = Some b /\ goes im k r /\ write_sections ((k, buf) :: r) im file =
     if extent (segment im k) >? zlen b then UB else write_sections r im (write_at (s_fileofs (segment im k)) (firstn (Z.to_nat (extent (segment im k))) b) file)) \/
  ((buf = None \/ ~ goes im k r) /\ write_sections ((k, buf) :: r) im file = write_sections r im file).
Proof.
  intros im k buf r file E. cbn [write_sections]. unfold SEGTYPE_ABS. destruct (s_type (segment im k) =? 5) eqn:T.
  { right. split; [|reflexivity]. right. intros (R & _). unfold real in R. fold (segment im k) in R. rewrite T in R. discriminate R. }
  assert (real (segs im) k = true) as R by (unfold real; fold (segment im k); rewrite T; reflexivity). specialize (E R). unfold extent in *. rewrite wrap_small by exact E.
  destruct (s_written (segment im k) =? 0) eqn:W; cbn [andb].
  - destruct (existsb _ r) eqn:X; cbn [negb].
    + destruct buf as [b|]; [|right; auto]. destruct (Z.eqb_spec (s_max_offset (segment im k) - s_start_loc (segment im k)) 0) as [Z0|Z0].
      * right. split; [|reflexivity]. right. intros (_ & G & _). unfold extent in G. lia.
      * left. exists b. split; [reflexivity|]. split; [|reflexivity]. split; [exact R|]. unfold extent. split; [lia|]. right. apply existsb_written. exact X.
    + right. split; [|destruct buf; reflexivity]. right. intros (_ & _ & [G|G]); [apply Z.eqb_eq in W; contradiction|]. apply existsb_written in G. congruence.
  - destruct buf as [b|]; [|right; auto]. destruct (Z.eqb_spec (s_max_offset (segment im k) - s_start_loc (segment im k)) 0) as [Z0|Z0].
    + right. split; [|reflexivity]. right. intros (_ & G & _). unfold extent in G. lia.
    + left. exists b. split; [reflexivity|]. split; [|reflexivity]. split; [exact R|]. unfold extent. split; [lia|]. left. apply Z.eqb_neq. exact W.
Qed.
Lemma emits_cons : forall im k buf r j, emits im (map fst ((k, buf) :: r)) j <-> (j = k /\ goes im k r) \/ emits im (map fst r) j.
Proof. intros im k buf r j. cbn [map fst emits]. unfold goes. split; intros [H|H]; auto; left; destruct H as [H1 H2]; split; auto. Qed.
Lemma emits_in : forall im l k, emits im l k -> In k l /\ real (segs im) k = true /\ 0 < extent (segment im k).
Proof. intros im. induction l as [|j r IH]; intros k H; [destruct H|]. destruct H as [(-> & R & X & _)|H]; [split; [left; reflexivity|auto]|]. destruct (IH k H) as [A B]. split; [right; exact A|exact B]. Qed.
Lemma write_ok : forall im bufs file file', NoDup (map fst bufs) -> fits im (map fst bufs) -> disjoint im (map fst bufs) -> write_sections bufs im file = Ok file' ->
  (forall k b, emits im (map fst bufs) k -> In (k, Some b) bufs -> extent (segment im k) <= zlen b /\
     forall i, 0 <= i < extent (segment im k) -> byte_at file' (s_fileofs (segment im k) + i) = nth (Z.to_nat i) b 0) /\
  (forall p, (forall k b, emits im (map fst bufs) k -> In (k, Some b) bufs -> ~ occupies im k p) -> byte_at file' p = byte_at file p) /\
  (forall k b, emits im (map fst bufs) k -> In (k, Some b) bufs -> s_fileofs (segment im k) + extent (segment im k) <= zlen file') /\ zlen file <= zlen file' /\
  (zlen file' = zlen file \/ exists k b, emits im (map fst bufs) k /\ In (k, Some b) bufs /\ zlen file' = s_fileofs (segment im k) + extent (segment im k)).
Proof.
  intros im. induction bufs as [|[k buf] r IH]; intros file file' ND FT DJ E.
  - cbn in E. injection E as <-. split; [intros k b []|]. split; [reflexivity|]. split; [intros k b []|]. split; [lia|]. left. reflexivity.
  - cbn [map fst] in ND. inversion ND as [|? ? NI ND']; subst.
    assert (fits im (map fst r)) as FT' by (intros j J; apply FT; right; exact J).
    assert (disjoint im (map fst r)) as DJ' by (intros i j p I' J; apply DJ; right; assumption).
    assert (forall b, In (k, Some b) r -> False) as NR by (intros b X; apply NI, in_map_iff; exists (k, Some b); auto).
    destruct (write_step im k buf r file ltac:(intros RK; apply (FT k ltac:(left; reflexivity) RK))) as [(b & -> & G & ES)|[G ES]]; rewrite ES in E; clear ES.
    + destruct (extent (segment im k) >? zlen b) eqn:GT; [discriminate E|]. rewrite Z.gtb_ltb in GT. apply Z.ltb_ge in GT.
      pose proof G as (RK & XK & _). destruct (FT k ltac:(left; reflexivity) RK) as [FK EK]. set (pos := s_fileofs (segment im k)) in *. set (len := extent (segment im k)) in *.
      set (bs := firstn (Z.to_nat len) b) in E. assert (zlen bs = len) as LB by (unfold bs, zlen; rewrite firstn_length; unfold zlen in GT; lia).
      destruct (IH _ _ ND' FT' DJ' E) as (I1 & I2 & I3 & I4 & I5). rewrite write_at_length in I4, I5 by exact FK. rewrite LB in I4, I5.
      assert (forall p, occupies im k p -> byte_at file' p = byte_at (write_at pos bs file) p) as OWN.
      { intros p O. apply I2. intros j b' J1 J2 O'. destruct (emits_in _ _ _ J1) as (A & B & _). apply (DJ k j p); auto; [left; reflexivity|right; exact A|]. intros <-. eapply NR; eauto. }
      split; [|split; [|split; [|split]]].
      * intros j b' EM J. apply emits_cons in EM. destruct J as [J|J].
        -- injection J as <- <-. split; [exact GT|]. intros i I'. fold pos. rewrite OWN by (unfold occupies; fold pos len; lia). rewrite write_at_byte by exact FK. rewrite LB.
           destruct (Z.leb_spec pos (pos + i)); [|lia]. destruct (Z.ltb_spec (pos + i) (pos + len)); [|lia]. cbn [andb]. replace (pos + i - pos) with i by lia.
           unfold bs. rewrite nth_firstn'. destruct (Nat.ltb_spec (Z.to_nat i) (Z.to_nat len)); [reflexivity|lia].
        -- destruct EM as [[-> _]|EM]; [destruct (NR b' J)|]. apply I1; assumption.
      * intros p NO. rewrite I2 by (intros j b' J1 J2; apply (NO j b'); [apply emits_cons; auto|right; exact J2]). rewrite write_at_byte by exact FK. rewrite LB.
        specialize (NO k b ltac:(apply emits_cons; left; auto) ltac:(left; reflexivity)). unfold occupies in NO. fold pos len in NO.
        destruct (Z.leb_spec pos p), (Z.ltb_spec p (pos + len)); cbn [andb]; try reflexivity. lia.
      * intros j b' EM J. apply emits_cons in EM. destruct J as [J|J].
        -- injection J as <- <-. fold pos len. lia.
        -- destruct EM as [[-> _]|EM]; [destruct (NR b' J)|]. eapply I3; eassumption.
      * lia.
      * destruct I5 as [I5|(j & b' & J1 & J2 & J3)].
        -- destruct (Z.max_spec (zlen file) (pos + len)) as [[_ M]|[_ M]]; rewrite M in I5; [|left; exact I5]. right. exists k, b. split; [apply emits_cons; left; auto|]. split; [left; reflexivity|exact I5].
        -- right. exists j, b'. split; [apply emits_cons; right; exact J1|]. split; [right; exact J2|exact J3].
    + destruct (IH _ _ ND' FT' DJ' E) as (I1 & I2 & I3 & I4 & I5).
      assert (forall j b, emits im (map fst ((k, buf) :: r)) j -> In (j, Some b) ((k, buf) :: r) -> emits im (map fst r) j /\ In (j, Some b) r) as RED.
      { intros j b EM J. apply emits_cons in EM. destruct J as [J|J].
        - injection J as <- ->. destruct EM as [[_ EM]|EM]; [destruct G as [G|G]; [discriminate|contradiction]|]. destruct NI. apply (emits_in _ _ _ EM).
        - destruct EM as [[-> _]|EM]; [destruct (NR b J)|]. auto. }
      split; [intros j b A B; destruct (RED j b A B); apply I1; assumption|]. split.
      { intros p NO. apply I2. intros j b A B. apply (NO j b); [apply emits_cons; auto|right; exact B]. }
      split; [intros j b A B; destruct (RED j b A B); eapply I3; eassumption|]. split; [exact I4|]. destruct I5 as [I5|(j & b & A & B & C)]; [left; exact I5|]. right. exists j, b. split; [apply emits_cons; auto|]. split; [right; exact B|exact C].
Qed.
Lemma write_total : forall im bufs file, NoDup (map fst bufs) -> fits im (map fst bufs) ->
  (forall k b, In (k, Some b) bufs -> real (segs im) k = true -> extent (segment im k) <= zlen b) -> exists file', write_sections bufs im file = Ok file'.
Proof.
  intros im. induction bufs as [|[k buf] r IH]; intros file ND FT H; [exists file; reflexivity|]. cbn [map fst] in ND. inversion ND as [|? ? NI ND']; subst.
  assert (fits im (map fst r)) as FT' by (intros j J; apply FT; right; exact J).
  assert (forall k b, In (k, Some b) r -> real (segs im) k = true -> extent (segment im k) <= zlen b) as H' by (intros j b J; apply H; right; exact J).
  destruct (write_step im k buf r file ltac:(intros RK; apply (FT k ltac:(left; reflexivity) RK))) as [(b & -> & G & ES)|[G ES]]; rewrite ES; [|apply IH; assumption].
  destruct (Z.gtb_spec (extent (segment im k)) (zlen b)) as [X|X]; [|apply IH; assumption]. specialize (H k b ltac:(left; reflexivity) (proj1 G)). lia.
Qed.

(** * fixups of all segments *)
Lemma fix_all_spec : forall fmt l im ks bufs, fix_all fmt l ks im = Ok bufs -> map fst bufs = ks /\ forall k b, In (k, b) bufs -> DoFixup fmt l im k = Ok b.
Proof.
  intros fmt l im. induction ks as [|k r IH]; intros bufs E; cbn [fix_all] in E.
  - injection E as <-. split; [reflexivity|]. intros k b [].
  - destruct (DoFixup fmt l im k) as [b| |] eqn:D; try discriminate E. cbn [bindr] in E. destruct (fix_all fmt l r im) as [bs| |] eqn:F; try discriminate E. cbn [bindr] in E. injection E as <-.
    destruct (IH bs eq_refl) as [A B]. cbn [map fst]. rewrite A. split; [reflexivity|]. intros j c [J|J]; [injection J as <- <-; exact D|apply B; exact J].
Qed.
Lemma fix_all_total : forall fmt l im ks, (forall k, In k ks -> exists b, DoFixup fmt l im k = Ok b) -> exists bufs, fix_all fmt l ks im = Ok bufs.
Proof.
  intros fmt l im. induction ks as [|k r IH]; intros H; cbn [fix_all]; [eexists; reflexivity|]. destruct (H k ltac:(left; reflexivity)) as [b ->]. cbn [bindr].
  destruct IH as [bs ->]; [intros j J; apply H; right; exact J|]. cbn [bindr]. eexists. reflexivity.
Qed.

(** * no overlap *)
Lemma packed_from : forall fmt ss ks from, packed fmt ss from ks -> (forall k, In k ks -> real ss k = true -> 0 <= reserved fmt (nth k ss no_seg)) ->
  forall k, In k ks -> real ss k = true -> from <= s_fileofs (nth k ss no_seg).
Proof.
  intros fmt ss. induction ks as [|j r IH]; intros from P H k K R; [destruct K|]. cbn [packed] in P. destruct (real ss j) eqn:RJ.
  - destruct P as (P1 & _ & P3). destruct K as [<-|K]; [lia|]. specialize (IH _ P3 ltac:(intros; apply H; [right|]; assumption) k K R). specialize (H j ltac:(left; reflexivity) RJ). lia.
  - destruct K as [<-|K]; [congruence|]. apply (IH _ P ltac:(intros; apply H; [right|]; assumption) k K R).
Qed.
Lemma packed_ordered : forall fmt ss pre i mid j post from, packed fmt ss from (pre ++ i :: mid ++ j :: post) ->
  (forall k, In k (pre ++ i :: mid ++ j :: post) -> real ss k = true -> 0 <= reserved fmt (nth k ss no_seg)) -> real ss i = true -> real ss j = true ->
  s_fileofs (nth i ss no_seg) + reserved fmt (nth i ss no_seg) <= s_fileofs (nth j ss no_seg).
Proof.
  intros fmt ss. induction pre as [|k pre IH]; intros i mid j post from P H RI RJ.
  - cbn [app packed] in P. rewrite RI in P. destruct P as (_ & _ & P). apply (packed_from fmt ss _ _ P); [|apply in_app_iff; right; left; reflexivity|exact RJ].
    intros k K. apply H. right. exact K.
  - cbn [app packed] in P. assert (exists from', packed fmt ss from' (pre ++ i :: mid ++ j :: post)) as [from' P'] by (destruct (real ss k); [destruct P as (_ & _ & P)|]; eexists; exact P).
    apply (IH i mid j post from' P'); auto. intros k' K'. apply H. right. exact K'.
Qed.
Lemma in_two : forall (i j : nat) ks, In i ks -> In j ks -> i <> j -> (exists a b c, ks = a ++ i :: b ++ j :: c) \/ (exists a b c, ks = a ++ j :: b ++ i :: c).
Proof.
  intros i j ks I' J N. apply in_split in I'. destruct I' as (a & b & ->). apply in_app_iff in J. destruct J as [J|[J|J]]; [|congruence|].
  - apply in_split in J. destruct J as (c & d & ->). right. exists c, d, b. rewrite <- app_assoc. reflexivity.
  - apply in_split in J. destruct J as (c & d & ->). left. exists a, c, d. reflexivity.
Qed.
Lemma packed_disjoint : forall fmt im ks from, packed fmt (segs im) from ks -> (forall k, In k ks -> real (segs im) k = true -> 0 <= extent (segment im k) /\ whole fmt (segment im k)) ->
  disjoint im ks.
Proof.
  intros fmt im ks from P H i j p I' J N RI RJ OI OJ. unfold occupies in OI, OJ.
  assert (forall k, In k ks -> real (segs im) k = true -> reserved fmt (segment im k) = extent (segment im k)) as RE.
  { intros k K R. destruct (H k K R) as [_ [->|W]]; [reflexivity|]. unfold reserved. destruct fmt; [reflexivity|]. apply Z.eqb_neq in W. rewrite W. reflexivity. }
  assert (forall k, In k ks -> real (segs im) k = true -> 0 <= reserved fmt (nth k (segs im) no_seg)) as RP by (intros k K R; fold (segment im k); rewrite RE by assumption; apply H; assumption).
  destruct (in_two i j ks I' J N) as [(a & b & c & ->)|(a & b & c & ->)].
  - pose proof (packed_ordered fmt (segs im) a i b j c from P RP RI RJ) as X. fold (segment im i) (segment im j) in X. rewrite (RE i I' RI) in X. lia.
  - pose proof (packed_ordered fmt (segs im) a j b i c from P RP RJ RI) as X. fold (segment im i) (segment im j) in X. rewrite (RE j J RJ) in X. lia.
Qed.

(** * orders *)
Lemma filter_split : forall A (f : A -> bool) l, Permutation l (filter f l ++ filter (fun x => negb (f x)) l).
Proof.
  intros A f. induction l as [|x l IH]; [reflexivity|]. cbn [filter]. destruct (f x); cbn [negb app]; [constructor; exact IH|].
  etransitivity; [constructor; exact IH|]. apply Permutation_middle.
Qed.
(** grouping by the values of a key is a stable sort *)
Lemma filter_flat_map : forall A B (f : A -> bool) (g : B -> list A) l, filter f (flat_map g l) = flat_map (fun x => filter f (g x)) l.
Proof. intros A B f g. induction l as [|x l IH]; [reflexivity|]. cbn [flat_map]. rewrite filter_app, IH. reflexivity. Qed.
Lemma filter_filter : forall A (f g : A -> bool) l, filter f (filter g l) = filter (fun x => g x && f x) l.
Proof. intros A f g. induction l as [|x l IH]; [reflexivity|]. cbn [filter]. destruct (g x); cbn [andb filter]; rewrite IH; reflexivity. Qed.
Lemma filter_none : forall A (f : A -> bool) l, (forall x, In x l -> f x = false) -> filter f l = [].
Proof. intros A f. induction l as [|x l IH]; intros H; [reflexivity|]. cbn [filter]. rewrite (H x ltac:(left; reflexivity)). apply IH. intros; apply H. right. assumption. Qed.
Lemma filter_same : forall A (f g : A -> bool) l, (forall x, In x l -> f x = g x) -> filter f l = filter g l.
Proof. intros A f g. induction l as [|x l IH]; intros H; [reflexivity|]. cbn [filter]. rewrite (H x ltac:(left; reflexivity)), IH by (intros; apply H; right; assumption). reflexivity. Qed.
Section G.
Variables (key : nat -> Z).
Definition grouped (vs : list Z) (l : list nat) : list nat := flat_map (fun v => filter (fun k => key k =? v) l) vs.
Lemma grouped_perm : forall vs l, NoDup vs -> (forall k, In k l -> In (key k) vs) -> Permutation l (grouped vs l).
Proof.
  induction vs as [|v vs IH]; intros l ND H.
  - destruct l as [|k l]; [reflexivity|]. destruct (H k ltac:(left; reflexivity)).
  - cbn [grouped flat_map]. inversion ND as [|? ? NI ND']; subst. etransitivity; [apply (filter_split _ (fun k => key k =? v))|]. apply Permutation_app_head.
    etransitivity; [apply (IH _ ND')|].
    + intros k K. apply filter_In in K. destruct K as [K N]. apply negb_true_iff, Z.eqb_neq in N. destruct (H k K) as [E|E]; [congruence|exact E].
    + unfold grouped. assert (forall ws, (forall w, In w ws -> w <> v) -> flat_map (fun w => filter (fun k => key k =? w) (filter (fun k => negb (key k =? v)) l)) ws = flat_map (fun w => filter (fun k => key k =? w) l) ws) as X.
      { induction ws as [|w ws IHw]; intros HW; [reflexivity|]. cbn [flat_map]. rewrite IHw by (intros; apply HW; right; assumption). f_equal. rewrite filter_filter. apply filter_same. intros k _.
        specialize (HW w ltac:(left; reflexivity)). destruct (Z.eqb_spec (key k) v), (Z.eqb_spec (key k) w); cbn; try reflexivity. congruence. }
      rewrite X by (intros w W E; subst w; contradiction). reflexivity.
Qed.
Lemma grouped_in : forall vs l k, In k (grouped vs l) -> In k l /\ In (key k) vs.
Proof. intros vs l k H. unfold grouped in H. apply in_flat_map in H. destruct H as (v & V & K). apply filter_In in K. destruct K as [K E]. apply Z.eqb_eq in E. subst v. auto. Qed.
Lemma grouped_filter : forall vs l (f : nat -> bool) v, NoDup vs -> In v vs -> (forall k, In k l -> In (key k) vs -> f k = (key k =? v)) -> filter f (grouped vs l) = filter (fun k => key k =? v) l.
Proof.
  intros vs l f v ND IV H. unfold grouped. rewrite filter_flat_map.
  assert (forall ws, (forall w, In w ws -> In w vs) -> NoDup ws -> flat_map (fun w => filter f (filter (fun k => key k =? w) l)) ws = if existsb (Z.eqb v) ws then filter (fun k => key k =? v) l else []) as X.
  { induction ws as [|w ws IHw]; intros HW NW; [reflexivity|]. cbn [flat_map existsb]. inversion NW as [|? ? NI NW']; subst. rewrite IHw by (auto; intros; apply HW; right; assumption).
    rewrite filter_filter. destruct (Z.eqb_spec v w) as [->|N]; cbn [orb].
    - replace (existsb (Z.eqb w) ws) with false. 2: { symmetry. apply not_true_is_false. intros E. apply existsb_exists in E. destruct E as (u & U & E). apply Z.eqb_eq in E. subst u. contradiction. }
      rewrite app_nil_r. apply filter_same. intros k K. destruct (Z.eqb_spec (key k) w) as [E|E]; [|reflexivity]. cbn [andb]. rewrite H; [apply Z.eqb_eq; exact E|exact K|]. rewrite E. exact IV.
    - rewrite (filter_none _ (fun x => (key x =? w) && f x)); [reflexivity|]. intros k K. destruct (Z.eqb_spec (key k) w) as [E|E]; [|reflexivity]. cbn [andb].
      rewrite H; [apply Z.eqb_neq; congruence|exact K|]. rewrite E. apply HW. left. reflexivity. }
  rewrite X by auto. assert (existsb (Z.eqb v) vs = true) as -> by (apply existsb_exists; exists v; split; [exact IV|apply Z.eqb_refl]). reflexivity.
Qed.
End G.
Lemma rank_order : forall t, In t dosseg_order -> 0 <= t <= 5.
Proof. intros t H. vm_compute in H. lia. Qed.
Lemma dosseg_sorted : forall ss l, (forall k, In k l -> 0 <= s_type (nth k ss no_seg) <= 5) ->
  stably_sorted (before DOSSEG ss) l (grouped (fun k => s_type (nth k ss no_seg)) dosseg_order l).
Proof.
  intros ss l H. set (key := fun k => s_type (nth k ss no_seg)). assert (NoDup dosseg_order) as ND by (vm_compute; repeat constructor; cbn; lia).
  assert (forall t, 0 <= t <= 5 -> In t dosseg_order) as IN by (intros t T; assert (t = 0 \/ t = 1 \/ t = 2 \/ t = 3 \/ t = 4 \/ t = 5) as [->|[->|[->|[->|[->| ->]]]]] by lia; vm_compute; tauto).
  set (rk := fun t => match t with 1 => 0 | 0 => 1 | 2 => 2 | 3 => 3 | 4 => 4 | _ => 5 end : Z).
  assert (forall k, rank (nth k ss no_seg) = rk (key k)) as RK by reflexivity.
  assert (forall a b, 0 <= a <= 5 -> 0 <= b <= 5 -> rk a = rk b -> a = b) as INJ.
  { intros a b A B. assert (a = 0 \/ a = 1 \/ a = 2 \/ a = 3 \/ a = 4 \/ a = 5) as [->|[->|[->|[->|[->| ->]]]]] by lia;
    assert (b = 0 \/ b = 1 \/ b = 2 \/ b = 3 \/ b = 4 \/ b = 5) as [->|[->|[->|[->|[->| ->]]]]] by lia; cbn; lia. }
  split; [|split].
  - apply grouped_perm; [exact ND|]. intros k K. apply IN. apply H. exact K.
  - assert (forall vs, StronglySorted (fun a b => rk a <= rk b) vs -> StronglySorted (fun a b => before DOSSEG ss a b = false) (grouped key vs l)) as X.
    { induction vs as [|v vs IH]; intros S0; [constructor|]. inversion S0 as [|? ? S1 S2]; subst. cbn [grouped flat_map].
      assert (forall m, (forall k, In k m -> key k = v) -> StronglySorted (fun a b => before DOSSEG ss a b = false) (m ++ grouped key vs l)) as Y.
      { induction m as [|k m IHm]; intros HM; [apply IH; exact S1|]. cbn [app]. constructor; [apply IHm; intros; apply HM; right; assumption|].
        apply Forall_forall. intros j J. unfold before. rewrite !RK. rewrite (HM k ltac:(left; reflexivity)). rewrite Z.gtb_ltb. apply Z.ltb_ge. apply in_app_iff in J. destruct J as [J|J].
        - rewrite (HM j ltac:(right; exact J)). lia.
        - apply grouped_in in J. rewrite Forall_forall in S2. apply S2. apply J. }
      apply Y. intros k K. apply filter_In in K. apply Z.eqb_eq. apply K. }
    apply X. vm_compute. repeat constructor; discriminate.
  - intros x. destruct (existsb (Z.eqb (rk (key x))) (map rk dosseg_order)) eqn:EX.
    + apply existsb_exists in EX. destruct EX as (r & R & E). apply Z.eqb_eq in E. apply in_map_iff in R. destruct R as (v & <- & V). pose proof (rank_order v V) as VB.
      rewrite (grouped_filter key dosseg_order l _ v ND V).
      * apply filter_same. intros k K. unfold same_key, before. rewrite !RK, E. specialize (H k K). destruct (Z.eqb_spec (key k) v) as [->|N].
        -- rewrite Z.gtb_ltb, Z.ltb_irrefl. reflexivity.
        -- symmetry. apply andb_false_iff. rewrite !negb_false_iff, !Z.gtb_lt. assert (rk (key k) <> rk v) by (intros Q; apply N; apply INJ; auto). lia.
      * intros k K _. unfold same_key, before. rewrite !RK, E. specialize (H k K). destruct (Z.eqb_spec (key k) v) as [->|N].
        -- rewrite Z.gtb_ltb, Z.ltb_irrefl. reflexivity.
        -- apply andb_false_iff. rewrite !negb_false_iff, !Z.gtb_lt. assert (rk (key k) <> rk v) by (intros Q; apply N; apply INJ; auto). lia.
    + exfalso. apply not_true_iff_false in EX. apply EX. apply existsb_exists. exists (rk (key x)). split; [|apply Z.eqb_refl]. unfold rk. vm_compute map. destruct (key x) as [|[[[]|[]|]|[[]|[]|]|]|]; cbn; tauto.
Qed.
Lemma stable_refl : forall A (l : list A), stably_sorted (fun _ _ => false) l l.
Proof. intros A l. split; [reflexivity|]. split; [|reflexivity]. induction l as [|x l IH]; constructor; [exact IH|]. apply Forall_forall. reflexivity. Qed.
Lemma layout_spec : forall fmt flat o l im, (forall k, In k l -> 0 <= s_type (segment im k) <= 5) ->
  exists l' ks, layout fmt flat o l im = Some (l', calc_all fmt flat ks im) /\ stably_sorted (before o (segs im)) l ks /\ Permutation l l' /\ (o <> DOSSEG -> l' = ks) /\
  (o = DOSSEG -> stably_sorted (fun a b => s_fileofs (segment (calc_all fmt flat ks im) a) >? s_fileofs (segment (calc_all fmt flat ks im) b)) l l').
Proof.
  intros fmt flat o l im H. destruct o.
  - exists l, l. split; [reflexivity|]. split; [apply stable_refl|]. split; [reflexivity|]. split; [reflexivity|discriminate].
  - cbn [layout]. set (ks := flat_map _ dosseg_order).
    destruct (sort_ok _ (weak_map _ _ (fun a => s_fileofs (segment (calc_all fmt flat ks im) a)) _ gtb_weak) l) as (l' & E & S0). rewrite E.
    exists l', ks. split; [reflexivity|]. split; [apply (dosseg_sorted (segs im) l H)|]. split; [apply S0|]. split; [congruence|]. intros _. exact S0.
  - cbn [layout]. destruct (sort_ok _ (weak_map _ _ (fun a => s_name (segment im a)) _ strcmp_weak) l) as (l' & E & S0). rewrite E.
    exists l', l'. split; [reflexivity|]. split; [exact S0|]. split; [apply S0|]. split; [reflexivity|discriminate].
Qed.
