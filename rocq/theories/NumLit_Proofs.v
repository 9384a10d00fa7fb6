From Verif Require Import Base NumLit_Model NumLit_Spec.

Lemma byte_cases (P : Z -> bool) : forallb P (map Z.of_nat (seq 0 256)) = true ->
  forall c, 0 <= c < 256 -> P c = true.
Proof.
  intros H c R. rewrite forallb_forall in H. apply H. apply in_map_iff.
  exists (Z.to_nat c). rewrite in_seq. lia.
Qed.

(** *** digits seen *)
Lemma lt_shiftr a r : 0 <= a -> 0 <= r -> a < 2 ^ r <-> Z.shiftr a r = 0.
Proof.
  intros. rewrite Z.shiftr_div_pow2 by auto. pose proof (pow2_pos r H0).
  split; intros.
  - apply Z.div_small; lia.
  - apply Z.div_small_iff in H2; lia.
Qed.
Lemma lor_lt a b r : 0 <= a -> 0 <= b -> 0 <= r -> Z.lor a b < 2 ^ r <-> a < 2 ^ r /\ b < 2 ^ r.
Proof.
  intros. rewrite !lt_shiftr; auto. 2:{ apply Z.lor_nonneg; auto. }
  rewrite Z.shiftr_lor, Z.lor_eq_0_iff. tauto.
Qed.
Lemma shl1_lt d r : 0 <= d -> 0 <= r -> Z.shiftl 1 d < 2 ^ r <-> d < r.
Proof. intros. rewrite Z.shiftl_1_l. symmetry. apply Z.pow_lt_mono_r_iff; lia. Qed.

Lemma dig_range c d : dig c = Some d -> 0 <= d < 16 /\ 48 <= c < 103.
Proof.
  unfold dig. destruct (_ && _)%bool eqn:A; [intros Q; inversion Q; lia|].
  destruct (_ && _)%bool eqn:B in |- *; [intros Q; inversion Q; lia|].
  destruct (_ && _)%bool eqn:C in |- *; [intros Q; inversion Q; lia|]. discriminate.
Qed.

Lemma scan_step c r seen : 
  scan_digits (c :: r) seen = match dig c with
   | Some d => let '(ds, s, t) := scan_digits r (Z.lor seen (Z.shiftl 1 d)) in (c :: ds, s, t)
   | None => ([], seen, c :: r) end.
Proof.
  cbn [scan_digits]. unfold dig, tolower.
  destruct ((48 <=? c) && (c <=? 57)) eqn:A; auto.
  destruct ((65 <=? c) && (c <=? 90)) eqn:B.
  - destruct ((97 <=? c + 32) && (c + 32 <=? 102)) eqn:C.
    + destruct ((65 <=? c) && (c <=? 70)) eqn:D; [|lia]. replace (c + 32 + 10 - 97) with (c - 55) by lia. auto.
    + destruct ((65 <=? c) && (c <=? 70)) eqn:D; [lia|]. 
      destruct ((97 <=? c) && (c <=? 102)) eqn:F; [lia|]. auto.
  - destruct ((65 <=? c) && (c <=? 70)) eqn:D; [lia|]. 
    destruct ((97 <=? c) && (c <=? 102)) eqn:F; auto. replace (c + 10 - 97) with (c - 87) by lia. auto.
Qed.

Lemma scan_spec l : forall s0 ds s rest, 0 <= s0 -> scan_digits l s0 = (ds, s, rest) ->
  l = ds ++ rest /\ Forall hexdig ds /\ stop rest /\ 0 <= s /\
  (forall r, 0 <= r -> s < 2 ^ r <-> s0 < 2 ^ r /\ Forall (digit_in r) ds).
Proof.
  induction l; intros s0 ds s rest S0 H.
  - inversion H; subst. repeat split; auto; try (unfold stop, hexdig; cbn; congruence); try tauto.
    all: intros; try tauto.
  - rewrite scan_step in H. destruct (dig a) as [d|] eqn:D.
    + pose proof (dig_range _ _ D) as (RD & _).
      destruct (scan_digits l _) as [[ds1 s1] t1] eqn:E. inversion H; subst.
      assert (P0 : 0 <= Z.lor s0 (Z.shiftl 1 d)).
      { apply Z.lor_nonneg; split; auto. apply Z.shiftl_nonneg. lia. }
      destruct (IHl _ _ _ _ P0 E) as (-> & F & ST & NN & B).
      repeat split; auto.
      * constructor; auto. unfold hexdig. congruence.
      * match goal with L : s < 2 ^ r |- _ => apply B in L; auto; destruct L as (L & _); apply lor_lt in L; auto; try tauto end.
        apply Z.shiftl_nonneg. lia.
      * apply B in H1; auto. destruct H1 as (L & FF). apply lor_lt in L; auto. 2:{ apply Z.shiftl_nonneg. lia. }
        constructor; auto. exists d. split; auto. apply shl1_lt; [lia|auto|tauto].
      * intros (L & FF). inversion FF; subst. apply B; auto. split; auto.
        apply lor_lt; auto. { apply Z.shiftl_nonneg. lia. } split; auto.
        apply shl1_lt; auto; try lia. destruct H3 as (d' & Q & QQ). congruence.
    + inversion H; subst. repeat split; auto; try tauto.
      unfold stop, hexdig. cbn. congruence.
Qed.

Lemma scan_seen0 l ds s rest : scan_digits l 0 = (ds, s, rest) -> s = 0 <-> ds = [].
Proof.
  intros H. destruct (scan_spec l 0 ds s rest ltac:(lia) H) as (_ & F & _ & P & B).
  split.
  - intros ->. specialize (B 0 ltac:(lia)). destruct ds; auto. exfalso.
    assert (Forall (digit_in 0) (z :: ds)) as Q by (apply B; lia). inversion Q; subst.
    destruct H2 as (d & D & L). apply dig_range in D. lia.
  - intros ->. specialize (B 0 ltac:(lia)). destruct B as (_ & B). specialize (B ltac:(split; [lia|constructor])). lia.
Qed.

Lemma scan_unique ds rest s0 : Forall hexdig ds -> stop rest -> exists s, scan_digits (ds ++ rest) s0 = (ds, s, rest).
Proof.
  intros F ST. revert s0. induction F; intros; cbn [app].
  - destruct rest as [|c r]; [eexists; reflexivity|]. rewrite scan_step. unfold stop, hexdig in ST. cbn in ST.
    destruct (dig c); [exfalso; apply ST; congruence|]. eauto.
  - rewrite scan_step. unfold hexdig in H. destruct (dig x) as [d|]; [|congruence].
    destruct (IHF (Z.lor s0 (Z.shiftl 1 d))) as (s & ->). eauto.
Qed.

Lemma digit_in_hex b c : digit_in b c -> hexdig c.
Proof. intros (d & D & _). unfold hexdig. congruence. Qed.
Lemma digit_in_mono b b' c : b <= b' -> digit_in b c -> digit_in b' c.
Proof. intros L (d & D & Q). exists d. split; auto. lia. Qed.
Lemma hex16 c : hexdig c <-> digit_in 16 c.
Proof.
  split; [|apply digit_in_hex]. unfold hexdig, digit_in. destruct (dig c) eqn:D; [|congruence].
  intros _. exists z. apply dig_range in D. split; auto; lia.
Qed.

Lemma OK_NUM_spec s b : 0 <= s -> 0 <= b -> OK_NUM s (2 ^ b - 1) = (s <? 2 ^ b).
Proof.
  intros. unfold OK_NUM. rewrite <- Z.ldiff_land.
  replace (2 ^ b - 1) with (Z.ones b). 2:{ rewrite Z.ones_equiv. lia. }
  rewrite Z.ldiff_ones_r by auto.
  destruct (s <? 2 ^ b) eqn:Q.
  - assert (s < 2 ^ b) by lia. apply lt_shiftr in H1; auto. rewrite H1, Z.shiftl_0_l. auto.
  - destruct (Z.shiftl (Z.shiftr s b) b =? 0) eqn:R; auto.
    apply Z.eqb_eq, Z.shiftl_eq_0_iff, (lt_shiftr s b) in R; auto. lia.
Qed.

(** *** tolower comparisons *)
Lemma lower_eq c k : 97 <= k <= 122 -> tolower c = k <-> c = k \/ c = k - 32.
Proof. unfold tolower. intros. destruct (_ && _)%bool eqn:A; lia. Qed.

Lemma suffix_cases c :
  (suffix_base c = Some 16 <-> tolower c = 104) /\
  (suffix_base c = Some 2 <-> tolower c = 121) /\
  (suffix_base c = Some 10 <-> tolower c = 116) /\
  (suffix_base c = Some 8 <-> (tolower c = 113 \/ tolower c = 111)).
Proof.
  rewrite !lower_eq by lia. unfold suffix_base.
  repeat match goal with |- context [if ?b then _ else _] => destruct b eqn:? end;
  repeat split; intros; try congruence; try lia.
Qed.
Lemma suffix_vals c b : suffix_base c = Some b -> b = 16 \/ b = 2 \/ b = 10 \/ b = 8.
Proof.
  unfold suffix_base. repeat match goal with |- context [if ?b then _ else _] => destruct b end;
  intros Q; inversion Q; auto.
Qed.
Lemma suffix_not_hex c b : suffix_base c = Some b -> ~ hexdig c.
Proof.
  unfold hexdig, suffix_base, dig. intros S D. apply D; clear D. 
  repeat match type of S with context [if ?b then _ else _] => destruct b eqn:? end; try discriminate;
  repeat match goal with |- context [if ?b then _ else _] => destruct b eqn:? end; auto; lia.
Qed.

Lemma bd_cases c : (bd_base c = Some 2 <-> tolower c = 98) /\ (bd_base c = Some 10 <-> tolower c = 100).
Proof.
  rewrite !lower_eq by lia. unfold bd_base.
  repeat match goal with |- context [if ?b then _ else _] => destruct b eqn:? end;
  repeat split; intros; try congruence; try lia.
Qed.
Lemma bd_dig c b : bd_base c = Some b -> (b = 2 /\ dig c = Some 11) \/ (b = 10 /\ dig c = Some 13).
Proof.
  unfold bd_base. destruct ((c =? 98) || (c =? 66))%bool eqn:A.
  { intros Q; inversion Q; left. split; auto. assert (c = 98 \/ c = 66) as [-> | ->] by lia; reflexivity. }
  destruct ((c =? 100) || (c =? 68))%bool eqn:B; intros Q; inversion Q. right. split; auto.
  assert (c = 100 \/ c = 68) as [-> | ->] by lia; reflexivity.
Qed.

Lemma all_le_digits max ds : Forall hexdig ds -> (max = 49 \/ max = 57) ->
  all_le max ds = true <-> Forall (digit_in (max - 47)) ds.
Proof.
  intros F M. unfold all_le. rewrite forallb_forall, Forall_forall. rewrite Forall_forall in F.
  split; intros H x I; specialize (H x I); specialize (F x I).
  - unfold hexdig, digit_in in *. unfold dig in *. destruct ((48 <=? x) && (x <=? 57)) eqn:A.
    + eexists; split; eauto. lia.
    + repeat match type of F with context [if ?b then _ else _] => destruct b eqn:? end; try congruence; lia.
  - destruct H as (d & D & L). unfold dig in D.
    repeat match type of D with context [if ?b then _ else _] => destruct b eqn:? end; inversion D; lia.
Qed.

Lemma last_removelast (ds : list Z) : ds <> [] -> ds = removelast ds ++ [last ds 0].
Proof. apply app_removelast_last. Qed.

Lemma ends_iff rest : stop rest -> ends rest <->
  (tolower (peek rest) <> 46 /\ tolower (peek rest) <> 114 /\ tolower (peek rest) <> 104 /\ tolower (peek rest) <> 121 /\
   tolower (peek rest) <> 116 /\ tolower (peek rest) <> 113 /\ tolower (peek rest) <> 111).
Proof.
  intros ST. pose proof (suffix_cases (peek rest)) as (A & B & C & D). unfold ends.
  assert (P46 : tolower (peek rest) = 46 <-> peek rest = 46).
  { unfold tolower. destruct (_ && _)%bool eqn:Q; lia. }
  assert (P114 : tolower (peek rest) = 114 <-> peek rest = 114 \/ peek rest = 82).
  { rewrite lower_eq by lia. lia. }
  rewrite P46, P114. cbn [In].
  destruct (suffix_base (peek rest)) as [b|] eqn:SB.
  - split; [intros (?&?&?); congruence|]. intros.
    destruct (suffix_vals _ _ SB) as [-> |[-> |[-> | ->]]]; exfalso; intuition congruence.
  - assert (tolower (peek rest) <> 104) by (intro Q; apply A in Q; congruence).
    assert (tolower (peek rest) <> 121) by (intro Q; apply B in Q; congruence).
    assert (tolower (peek rest) <> 116) by (intro Q; apply C in Q; congruence).
    assert (tolower (peek rest) <> 113) by (intro Q; assert (Some 8 = None -> False) by congruence; destruct D as (_ & D); specialize (D (or_introl Q)); congruence).
    assert (tolower (peek rest) <> 111) by (intro Q; destruct D as (_ & D); specialize (D (or_intror Q)); congruence).
    intuition lia.
Qed.

Definition no0x (l : list Z) : Prop := ~ (peek l = 48 /\ (peek (tl l) = 120 \/ peek (tl l) = 88)).

Lemma literal_inv radix input b ds rest : literal radix input b ds rest ->
  (exists x, input = 48 :: x :: ds ++ rest /\ b = 16 /\ (x = 120 \/ x = 88) /\ ds <> [] /\ Forall hexdig ds /\ stop rest /\ peek rest <> 46) \/
  (exists c, input = ds ++ c :: rest /\ suffix_base c = Some b /\ Forall (digit_in b) ds) \/
  (b = radix /\ input = ds ++ rest /\ Forall (digit_in radix) ds /\ ends rest /\ ~ (ds = [48] /\ (peek rest = 120 \/ peek rest = 88))) \/
  (exists c, input = ds ++ c :: rest /\ bd_base c = Some b /\ Forall (digit_in b) ds /\ ~ digit_in radix c /\ ends rest).
Proof.
  intros H. inversion H; subst.
  - left. eexists; repeat split; eauto.
  - right; left. eexists; repeat split; eauto.
  - right; right; left. repeat split; auto; apply H1.
  - right; right; right. eexists; repeat split; eauto; apply H3.
Qed.

Lemma body_iff radix input b ds rest : starts_dec input -> no0x input -> 2 <= radix <= 16 ->
  (exists text, get_number_body radix input = T_NUM b ds text rest) <-> literal radix input b ds rest.
Proof.
  intros SD N0 RR. unfold get_number_body.
  destruct (scan_digits input 0) as [[run seen] tail] eqn:SC.
  destruct (scan_spec input 0 run seen tail ltac:(lia) SC) as (EQ & HX & ST & PS & BD).
  assert (BD' : forall r, 0 <= r -> seen < 2 ^ r <-> Forall (digit_in r) run).
  { intros. rewrite BD by auto. split; [tauto|]. intros; split; auto. apply pow2_pos; auto. }
  clear BD.
  assert (RN : run <> []).
  { intros ->. unfold stop in ST. cbn in EQ. subst. apply ST. unfold hexdig, dig.
    unfold starts_dec in SD. destruct (_ && _)%bool eqn:Q; [congruence|lia]. }
  (* uniqueness of the run *)
  assert (UN : forall a z, input = a ++ z -> Forall hexdig a -> stop z -> a = run /\ z = tail).
  { intros a z E F S. subst input. destruct (scan_unique a z 0 F S) as (s & Q). rewrite E in SC. rewrite Q in SC. inversion SC; auto. }
  pose proof (suffix_cases (peek tail)) as (C16 & C2 & C10 & C8).
  assert (HEXF : forall bb a, Forall (digit_in bb) a -> Forall hexdig a).
  { intros bb a. apply Forall_impl. intros; eapply digit_in_hex; eauto. }
  assert (SUF : forall bb, suffix_base (peek tail) = Some bb -> 
     Forall (digit_in bb) run -> literal radix input bb run (tl tail)).
  { intros bb Sb Fb. destruct tail as [|t0 tt]; [discriminate|]. subst input. cbn [tl]. apply L_suffix; auto. }
  (* the four forms of a literal, in terms of the run *)
  assert (FORMS : literal radix input b ds rest ->
     (suffix_base (peek tail) = Some b /\ ds = run /\ rest = tl tail /\ Forall (digit_in b) run) \/
     (b = radix /\ ds = run /\ rest = tail /\ Forall (digit_in radix) run /\ ends tail) \/
     (exists c, run = ds ++ [c] /\ rest = tail /\ bd_base c = Some b /\ Forall (digit_in b) ds /\ ~ digit_in radix c /\ ends tail)).
  { intros LT. destruct (literal_inv _ _ _ _ _ LT) as [(x & E & _ & X & _)|[(c & E & Sc & F)|[(Eb & E & F & EN & _)|(c & E & Bc & F & NI & EN)]]].
    - exfalso. apply N0. rewrite E. cbn. auto.
    - left. destruct (UN ds (c :: rest) E ltac:(eauto)) as (-> & <-).
      { unfold stop. cbn. eapply suffix_not_hex; eauto. } cbn. auto.
    - right; left. destruct (UN ds rest E ltac:(eauto) (proj1 EN)) as (-> & ->). auto.
    - right; right. exists c. destruct (UN (ds ++ [c]) rest) as (<- & ->); auto.
      { rewrite <- app_assoc. auto. }
      { apply Forall_app; split; eauto. constructor; auto. apply bd_dig in Bc. unfold hexdig. destruct Bc as [(_ & ->)|(_ & ->)]; congruence. }
      { apply EN. }
      repeat split; auto; apply EN. }
  assert (INV : forall bb, suffix_base (peek tail) = Some bb -> literal radix input b ds rest ->
     b = bb /\ ds = run /\ rest = tl tail /\ Forall (digit_in bb) run).
  { intros bb Sb LT. destruct (FORMS LT) as [(A & B & C & D)|[(_ & _ & _ & _ & _ & Q & _)|(c & _ & _ & _ & _ & _ & _ & Q & _)]]; try congruence.
    rewrite Sb in A; inversion A; subst b; auto. }
  assert (NOLIT : ~ ends tail -> suffix_base (peek tail) = None -> ~ literal radix input b ds rest).
  { intros NE SN LT. destruct (FORMS LT) as [(A & B & C & D)|[(_ & _ & _ & _ & Q)|(c & _ & _ & _ & _ & _ & Q)]]; try congruence; auto. }
  set (lc := tolower (peek tail)) in *.
  destruct (lc =? 46) eqn:D46.
  { split; [intros (? & ?); discriminate|]. intros LT. exfalso. revert LT. apply NOLIT.
    - rewrite ends_iff by auto. fold lc. lia.
    - destruct (suffix_base (peek tail)) eqn:Q; auto. apply suffix_vals in Q as V. exfalso. destruct V as [-> |[-> |[-> | ->]]]; intuition lia. }
  destruct (lc =? 114) eqn:D114.
  { split; [intros (? & ?); discriminate|]. intros LT. exfalso. revert LT. apply NOLIT.
    - rewrite ends_iff by auto. fold lc. lia.
    - destruct (suffix_base (peek tail)) eqn:Q; auto. apply suffix_vals in Q as V. exfalso. destruct V as [-> |[-> |[-> | ->]]]; intuition lia. }
  destruct (lc =? 104) eqn:D104.
  { assert (Sb : suffix_base (peek tail) = Some 16) by (apply C16; lia). split.
    - intros (text & Q). inversion Q; subst. apply SUF; auto. eapply Forall_impl; [|exact HX]. intros; apply hex16; auto.
    - intros LT. destruct (INV _ Sb LT) as (-> & -> & -> & _). eauto. }
  destruct (lc =? 121) eqn:D121.
  { assert (Sb : suffix_base (peek tail) = Some 2) by (apply C2; lia).
    change VALID_BINARY with (2 ^ 2 - 1). rewrite OK_NUM_spec by lia.
    destruct (seen <? 2 ^ 2) eqn:OKN; split.
    - intros (text & Q). inversion Q; subst. apply SUF; auto. apply BD'; lia.
    - intros LT. destruct (INV _ Sb LT) as (-> & -> & -> & _). eauto.
    - intros (? & ?); discriminate.
    - intros LT. destruct (INV _ Sb LT) as (-> & -> & -> & F). apply BD' in F; lia. }
  destruct (lc =? 116) eqn:D116.
  { assert (Sb : suffix_base (peek tail) = Some 10) by (apply C10; lia).
    change VALID_DECIMAL with (2 ^ 10 - 1). rewrite OK_NUM_spec by lia.
    destruct (seen <? 2 ^ 10) eqn:OKN; split.
    - intros (text & Q). inversion Q; subst. apply SUF; auto. apply BD'; lia.
    - intros LT. destruct (INV _ Sb LT) as (-> & -> & -> & _). eauto.
    - intros (? & ?); discriminate.
    - intros LT. destruct (INV _ Sb LT) as (-> & -> & -> & F). apply BD' in F; lia. }
  destruct ((lc =? 113) || (lc =? 111)) eqn:D113.
  { assert (Sb : suffix_base (peek tail) = Some 8) by (apply C8; lia).
    change VALID_OCTAL with (2 ^ 8 - 1). rewrite OK_NUM_spec by lia.
    destruct (seen <? 2 ^ 8) eqn:OKN; split.
    - intros (text & Q). inversion Q; subst. apply SUF; auto. apply BD'; lia.
    - intros LT. destruct (INV _ Sb LT) as (-> & -> & -> & _). eauto.
    - intros (? & ?); discriminate.
    - intros LT. destruct (INV _ Sb LT) as (-> & -> & -> & F). apply BD' in F; lia. }
  assert (EN : ends tail) by (rewrite ends_iff by auto; fold lc; lia).
  assert (NSB : suffix_base (peek tail) = None) by apply EN.
  clear INV NOLIT SUF D46 D114 D104 D121 D116 D113 C16 C2 C10 C8.
  (* the last digit *)
  set (ld := last run 0) in *. set (pre := removelast run) in *.
  assert (RUN : run = pre ++ [ld]) by (apply last_removelast; auto).
  clearbody pre ld.
  assert (HXP : Forall hexdig pre /\ hexdig ld).
  { rewrite RUN in HX. apply Forall_app in HX as (? & Q). inversion Q; auto. }
  destruct HXP as (HP & HL).
  rewrite Z.shiftl_1_l.
  assert (LITS : literal radix input b ds rest <->
     (b = radix /\ ds = run /\ rest = tail /\ Forall (digit_in radix) run) \/
     (bd_base ld = Some b /\ ds = pre /\ rest = tail /\ Forall (digit_in b) pre /\ ~ digit_in radix ld)).
  { split.
    - intros LT. destruct (FORMS LT) as [(A & B & C & D)|[(A & B & C & D & Q)|(c & A & B & C & D & E & Q)]]; try congruence; auto.
      right. rewrite RUN in A. apply app_inj_tail in A as (A1 & A2). subst ds c. auto.
    - intros [(-> & -> & -> & F)|(B & -> & -> & F & NI)].
      + subst input. apply L_radix; auto. intros (R48 & X). apply N0. rewrite R48. cbn. auto.
      + rewrite EQ, RUN. rewrite <- app_assoc. cbn [app]. apply L_bd; auto. }
  rewrite LITS. clear LITS.
  pose proof (bd_cases ld) as (B2 & B10).
  destruct (((tolower ld =? 98) || (tolower ld =? 100)) && (2 ^ radix <=? seen) &&
     all_le (if tolower ld =? 98 then 49 else 57) pre)%bool eqn:BDC.
  - apply andb_prop in BDC as (BDC & AL). apply andb_prop in BDC as (LB & GE).
    assert (NR : ~ Forall (digit_in radix) run) by (intro F; apply BD' in F; lia).
    apply all_le_digits in AL; auto. 2:{ destruct (_ =? 98); auto. }
    assert (BB : bd_base ld = Some (if tolower ld =? 98 then 2 else 10)).
    { destruct (tolower ld =? 98) eqn:Q; [apply B2|apply B10]; lia. }
    assert (AL' : Forall (digit_in (if tolower ld =? 98 then 2 else 10)) pre).
    { destruct (tolower ld =? 98); auto. }
    assert (NL : ~ digit_in radix ld).
    { intros DI. apply NR. rewrite RUN. apply Forall_app; split; auto.
      eapply Forall_impl; [|exact AL']. intros c. apply digit_in_mono.
      destruct DI as (d & D & L). apply bd_dig in BB as [(-> & D')|(-> & D')]; rewrite D' in D; inversion D; lia. }
    split.
    + intros (text & Q). inversion Q; subst. right. repeat split; auto.
    + intros [(-> & -> & -> & F)|(B & -> & -> & F & NI)]; [contradiction|].
      rewrite BB in B. inversion B. eauto.
  - destruct (seen <? 2 ^ radix) eqn:LT.
    + assert (FR : Forall (digit_in radix) run) by (apply BD'; lia). split.
      * intros (text & Q). inversion Q; subst. left. auto.
      * intros [(-> & -> & -> & F)|(B & -> & -> & F & NI)]; [eauto|].
        exfalso. apply NI. rewrite RUN in FR. apply Forall_app in FR as (_ & Q). inversion Q; auto.
    + split; [intros (? & ?); discriminate|].
      intros [(-> & -> & -> & F)|(B & -> & -> & F & NI)].
      * apply BD' in F; lia.
      * exfalso. enough (all_le (if tolower ld =? 98 then 49 else 57) pre = true) as AT.
        { rewrite AT in BDC. rewrite andb_true_r in BDC. replace (2 ^ radix <=? seen) with true in BDC by (symmetry; lia). rewrite andb_true_r in BDC. apply bd_dig in B as V.
          destruct V as [(-> & _)|(-> & _)]; [apply B2 in B|apply B10 in B]; lia. }
        apply all_le_digits; auto. { destruct (_ =? 98); auto. }
        apply bd_dig in B as V.
        destruct V as [(-> & _)|(-> & _)]; [apply B2 in B|apply B10 in B];
          destruct (tolower ld =? 98) eqn:Q; try lia; auto.
Qed.

Lemma second_hex b a a' l : Forall (digit_in b) (a :: a' :: l) -> hexdig a'.
Proof. intros F. inversion F as [|? ? _ F2]; subst. inversion F2; subst. eapply digit_in_hex; eauto. Qed.

Lemma get_number_iff radix input b ds rest : starts_dec input -> 2 <= radix <= 16 ->
  (exists text, get_number radix input = T_NUM b ds text rest) <-> literal radix input b ds rest.
Proof.
  intros SD RR.
  assert (C : no0x input \/ exists x r, input = 48 :: x :: r /\ (x = 120 \/ x = 88)).
  { destruct input as [|c0 [|x r]]; unfold no0x; cbn; try (left; lia).
    destruct (Z.eq_dec c0 48) as [-> |]; [|left; lia].
    assert ((x = 120 \/ x = 88) \/ ~ (x = 120 \/ x = 88)) as [X|X] by lia; [right; eauto|left; lia]. }
  destruct C as [N0|(x & r & -> & X)].
  - rewrite <- body_iff by auto. 
    assert (E : get_number radix input = get_number_body radix input).
    { destruct input as [|c0 [|x r]]; auto. cbn [get_number].
      destruct ((c0 =? 48) && (tolower x =? 120)) eqn:Q; auto. exfalso. apply N0. cbn.
      assert (tolower x = 120) by lia. apply lower_eq in H; lia. }
    rewrite E. tauto.
  - cbn [get_number]. replace ((48 =? 48) && (tolower x =? 120)) with true.
    2:{ destruct X; subst; reflexivity. }
    destruct (scan_digits r 0) as [[run seen] tail] eqn:SC.
    destruct (scan_spec r 0 run seen tail ltac:(lia) SC) as (-> & HX & ST & PS & BD).
    pose proof (scan_seen0 _ _ _ _ SC) as S0.
    assert (LIT : literal radix (48 :: x :: run ++ tail) b ds rest <-> (b = 16 /\ ds = run /\ rest = tail /\ run <> [] /\ peek tail <> 46)).
    { assert (XH : ~ hexdig x) by (unfold hexdig, dig; destruct X; subst; cbn; congruence).
      split.
      - intros LT. destruct (literal_inv _ _ _ _ _ LT) as [(x' & E & Eb & X' & NE & F & ST' & N46)|[(c & E & Sc & F)|[(Eb & E & F & EN & NX)|(c & E & Bc & F & NI & EN)]]].
        + inversion E. destruct (scan_unique ds rest 0) as (s & Q); auto.
          match goal with H : run ++ tail = ds ++ rest |- _ => rewrite <- H in Q end. rewrite SC in Q. inversion Q; subst. auto.
        + exfalso. destruct ds as [|a [|a' ds']]; cbn in *; inversion E; subst.
          * unfold suffix_base in Sc. cbn in Sc. discriminate.
          * destruct X; subst; discriminate.
          * apply XH. eapply second_hex; eauto.
        + exfalso. destruct ds as [|a [|a' ds']]; cbn in *.
          * destruct EN as (Q & _). rewrite <- E in Q. apply Q. unfold hexdig, dig. cbn. congruence.
          * inversion E; subst. apply NX. split; auto.
          * inversion E; subst. apply XH. eapply second_hex; eauto.
        + exfalso. destruct ds as [|a [|a' ds']]; cbn in *; inversion E; subst.
          * unfold bd_base in Bc. cbn in Bc. discriminate.
          * destruct X; subst; discriminate.
          * apply XH. eapply second_hex; eauto.
      - intros (-> & -> & -> & NE & N46). apply L_0x; auto. }
    rewrite LIT. destruct (peek tail =? 46) eqn:P46.
    { split; [intros (? & ?); discriminate|]. intros (_ & _ & _ & _ & Q). lia. }
    destruct (seen =? 0) eqn:SZ.
    { split; [intros (? & ?); discriminate|]. intros (_ & _ & _ & Q & _). exfalso; apply Q, S0. lia. }
    split.
    + intros (text & Q). inversion Q; subst. repeat split; auto; try lia. intro E; apply S0 in E. lia.
    + intros (-> & -> & -> & _). eauto.
Qed.

(** *** values *)
Lemma literal_text radix input b ds rest text : get_number radix input = T_NUM b ds text rest ->
  input = text ++ rest /\
  ((exists x, text = 48 :: x :: ds /\ (x = 120 \/ x = 88)) \/ (text = ds \/ exists c, text = ds ++ [c] /\ c <> 120 /\ c <> 88) ).
Proof.
  assert (B : get_number_body radix input = T_NUM b ds text rest ->
    input = text ++ rest /\ (text = ds \/ exists c, text = ds ++ [c] /\ c <> 120 /\ c <> 88)).
  { unfold get_number_body. destruct (scan_digits input 0) as [[run seen] tail] eqn:SC.
    destruct (scan_spec input 0 run seen tail ltac:(lia) SC) as (-> & HX & ST & PS & BD).
    assert (T : forall k, tolower (peek tail) = k -> 97 <= k <= 122 -> k <> 120 ->
       run ++ tail = (run ++ [peek tail]) ++ tl tail /\
       exists c, run ++ [peek tail] = run ++ [c] /\ c <> 120 /\ c <> 88).
    { intros k E K1 K2. split.
      - rewrite <- app_assoc. cbn [app]. f_equal. destruct tail; auto. cbn in E. unfold tolower in E. cbn in E. lia.
      - eexists; split; [reflexivity|]. apply lower_eq in E; lia. }
    repeat match goal with |- context [if ?c then _ else _] => destruct c eqn:? end;
    intros Q; inversion Q; subst;
    try (match goal with H : (tolower (peek tail) =? ?k) = true |- _ => destruct (T k) as (T1 & T2); [lia|lia|lia|] end; split; auto);
    try (split; auto; fail).
    - assert (tolower (peek tail) = 113 \/ tolower (peek tail) = 111) as [K|K] by lia; destruct (T _ K) as (T1 & T2); try lia; auto.
    - split; auto. destruct text as [|t0 tt]; [left; reflexivity|]. right. eexists. split; [apply last_removelast; congruence|].
      assert (tolower (last (t0 :: tt) 0) = 98) as K by lia. apply lower_eq in K; lia.
    - split; auto. destruct text as [|t0 tt]; [left; reflexivity|]. right. eexists. split; [apply last_removelast; congruence|].
      assert (tolower (last (t0 :: tt) 0) = 100) as K by lia. apply lower_eq in K; lia. }
  destruct input as [|c0 [|x r]]; cbn [get_number]; try (intros Q; destruct (B Q); split; auto; fail).
  destruct ((c0 =? 48) && (tolower x =? 120)) eqn:X; [|intros Q; destruct (B Q); split; auto].
  destruct (scan_digits r 0) as [[run seen] tail] eqn:SC.
  destruct (scan_spec r 0 run seen tail ltac:(lia) SC) as (-> & _).
  destruct (peek tail =? 46); [discriminate|]. destruct (seen =? 0); [discriminate|].
  intros Q; inversion Q; subst. assert (tolower x = 120) as K by lia. apply lower_eq in K; [|lia].
  assert (c0 = 48) as -> by lia. split; auto. left. exists x. split; [reflexivity|lia].
Qed.

Definition limbs_ok (l : list Z) : Prop := Forall (fun x => 0 <= x < 2 ^ 16) l.

Lemma mul_add_spec l base : forall val, limbs_ok l -> 0 <= base <= 16 -> 0 <= val <= 16 ->
  limbs_ok (mul_add l base val) /\ length (mul_add l base val) = length l /\
  limbs_val (mul_add l base val) = (limbs_val l * base + val) mod 2 ^ (16 * zlen l).
Proof.
  induction l as [|x l]; intros val OK B V.
  - cbn. rewrite Z.mod_1_r. repeat split; auto. 
  - inversion OK; subst. cbn [mul_add limbs_val].
    assert (W : wrap 32 (val + x * base) = val + x * base).
    { apply wrap_small. nia. } rewrite W.
    set (v := val + x * base) in *.
    assert (VB : 0 <= v <= 16 * 65536) by (unfold v; nia).
    rewrite Z.shiftr_div_pow2 by lia.
    assert (VD : 0 <= v / 2 ^ 16 <= 16).
    { change (2 ^ 16) with 65536. split; [apply Z.div_pos; lia|]. apply Z.div_le_upper_bound; lia. }
    destruct (IHl (v / 2 ^ 16) H2 B VD) as (O & LE & VV).
    split; [constructor; auto; apply Z.mod_pos_bound; lia|]. split; [cbn [length]; rewrite LE; reflexivity|].
    rewrite VV. rewrite zlen_cons. replace (16 * (1 + zlen l)) with (16 + 16 * zlen l) by lia.
    pose proof (zlen_nonneg l).
    rewrite Z.pow_add_r by lia.
    rewrite (Z.rem_mul_r _ (2 ^ 16) (2 ^ (16 * zlen l))) by (try apply pow2_pos; try apply Z.pow_nonzero; lia).
    replace ((x + 2 ^ 16 * limbs_val l) * base + val) with (v + limbs_val l * base * 2 ^ 16) by (unfold v; ring).
    rewrite Z.mod_add, Z.div_add by (apply Z.pow_nonzero; lia).
    do 2 f_equal. f_equal. lia.
Qed.

Lemma digval_dig c d : dig c = Some d -> digval c = d.
Proof.
  intros D. pose proof (dig_range _ _ D) as (R & C).
  pose proof (byte_cases (fun c => match dig c with Some d => digval c =? d | None => true end) ltac:(vm_compute; reflexivity) c ltac:(lia)) as Q.
  cbv beta in Q. rewrite D in Q. lia.
Qed.

Definition pos_from (base acc : Z) (ds : list Z) : Z :=
  fold_left (fun acc c => match dig c with Some d => acc * base + d | None => acc end) ds acc.

Lemma pos_from_mod base ds m : forall acc, m <> 0 -> (pos_from base (acc mod m) ds) mod m = (pos_from base acc ds) mod m.
Proof.
  induction ds as [|c ds]; intros acc M; cbn.
  - rewrite Z.mod_mod; auto.
  - unfold pos_from in *. cbn. destruct (dig c); [|apply IHds; auto].
    rewrite <- IHds by auto. rewrite <- (IHds (acc * base + z)) by auto.
    f_equal. f_equal. rewrite <- (Z.add_mod_idemp_l (acc mod m * base)), Z.mul_mod_idemp_l, Z.add_mod_idemp_l by auto. auto.
Qed.

Lemma atoi_spec ds : forall rest limbs base, ds <> [] -> Forall (digit_in base) ds -> 2 <= base <= 16 ->
  limbs_ok limbs -> 
  limbs_val (atoi_loop (ds ++ rest) (length ds) limbs base) = pos_from base (limbs_val limbs) ds mod 2 ^ (16 * zlen limbs).
Proof.
  induction ds as [|c ds]; intros rest limbs base NE F B OK; [congruence|].
  inversion F as [|? ? HD HT]; subst. destruct HD as (d & D & DL). pose proof (dig_range _ _ D) as (DR & _).
  destruct (mul_add_spec limbs base d OK ltac:(lia) ltac:(lia)) as (O & LE & VV).
  pose proof (zlen_nonneg limbs).
  assert (M : 2 ^ (16 * zlen limbs) <> 0) by (apply Z.pow_nonzero; lia).
  destruct ds as [|c' ds'].
  - cbn. rewrite (digval_dig _ _ D), VV. unfold pos_from. cbn. rewrite D. auto.
  - change (length (c :: c' :: ds')) with (S (S (length ds'))).
    change (atoi_loop ((c :: c' :: ds') ++ rest) (S (S (length ds'))) limbs base) with
      (atoi_loop ((c' :: ds') ++ rest) (length (c' :: ds')) (mul_add limbs base (digval c)) base).
    rewrite IHds; auto; try congruence. 2:{ rewrite (digval_dig _ _ D). auto. }
    rewrite (digval_dig _ _ D).
    replace (zlen (mul_add limbs base d)) with (zlen limbs) by (unfold zlen; rewrite LE; auto).
    rewrite VV. rewrite pos_from_mod by auto.
    change (pos_from base (limbs_val limbs) (c :: c' :: ds')) with 
      (pos_from base (match dig c with Some d => limbs_val limbs * base + d | None => limbs_val limbs end) (c' :: ds')).
    rewrite D. auto.
Qed.

Lemma literal_digits radix input b ds rest : literal radix input b ds rest -> 2 <= radix <= 16 ->
  Forall (digit_in b) ds /\ 2 <= b <= 16.
Proof.
  intros L R. destruct (literal_inv _ _ _ _ _ L) as [(x & E & -> & X & NE & F & ST & N46)|[(c & E & Sc & F)|[(Eb & E & F & EN & NX)|(c & E & Bc & F & NI & EN)]]].
  - split; [|lia]. eapply Forall_impl; [|exact F]. intros. apply hex16; auto.
  - split; auto. apply suffix_vals in Sc. lia.
  - subst; auto.
  - split; auto. apply bd_dig in Bc. lia.
Qed.

Lemma or20_x c : hexdig c -> Z.lor c 0x20 <> 120.
Proof.
  unfold hexdig. destruct (dig c) eqn:D; [intros _|congruence]. pose proof (dig_range _ _ D) as (_ & R).
  pose proof (byte_cases (fun c => match dig c with Some d => negb (Z.lor c 0x20 =? 120) | None => true end) ltac:(vm_compute; reflexivity) c ltac:(lia)) as Q.
  cbv beta in Q. rewrite D in Q. lia.
Qed.
Lemma or20_x' c : 0 <= c < 256 -> c <> 120 -> c <> 88 -> Z.lor c 0x20 <> 120.
Proof.
  intros R. 
  pose proof (byte_cases (fun c => (c =? 120) || (c =? 88) || negb (Z.lor c 0x20 =? 120)) ltac:(vm_compute; reflexivity) c R) as Q.
  cbv beta in Q. lia.
Qed.

Lemma get_number_value radix input b ds text rest : starts_dec input -> 2 <= radix <= 16 ->
  Forall is_byte input -> get_number radix input = T_NUM b ds text rest ->
  token_value b ds text = positional b ds mod 2 ^ 128.
Proof.
  intros SD RR BY G.
  assert (L : literal radix input b ds rest) by (apply get_number_iff; eauto).
  destruct (literal_digits _ _ _ _ _ L RR) as (F & B).
  destruct (literal_text _ _ _ _ _ _ G) as (E & T).
  assert (NE : ds <> []).
  { intros ->. destruct (literal_inv _ _ _ _ _ L) as [(x & E' & _ & X & NE & _)|[(c & E' & Sc & _)|[(Eb & E' & _ & EN & NX)|(c & E' & Bc & _ & NI & EN)]]].
    - congruence.
    - subst input. rewrite E' in SD. apply suffix_not_hex in Sc. unfold starts_dec in SD. cbn in SD.
      apply Sc. unfold hexdig, dig. destruct (_ && _)%bool eqn:?; [congruence|lia].
    - cbn in E'. subst rest. destruct EN as (Q & _). apply Q. unfold hexdig, dig. unfold starts_dec in SD.
      destruct (_ && _)%bool eqn:?; [congruence|lia].
    - rewrite E' in SD. unfold starts_dec in SD. cbn in SD. unfold bd_base in Bc.
      repeat match type of Bc with context [if ?b then _ else _] => destruct b eqn:? end; try discriminate; lia. }
  unfold token_value, myatoi128.
  assert (V : forall r, limbs_val (atoi_loop (ds ++ r) (length ds) [0; 0; 0; 0; 0; 0; 0; 0] b) = positional b ds mod 2 ^ 128).
  { intros r. rewrite atoi_spec; auto. repeat (constructor; [lia|]). constructor. }
  destruct T as [(x & -> & X)|T].
  - cbn [tl hd]. replace (Z.lor x 32 =? 120) with true by (destruct X; subst; reflexivity).
    cbn [tl hd andb Z.eqb Pos.eqb]. rewrite <- (app_nil_r ds) at 1. apply V.
  - assert (exists r, text = ds ++ r) as (r & Er) by (destruct T as [->|(c & -> & _)]; [exists []; rewrite app_nil_r; auto|eauto]).
    replace ((Z.lor (peek (tl text)) 32 =? 120) && (peek text =? 48)) with false; [rewrite Er; apply V|].
    symmetry. apply andb_false_intro1.
    assert (Z.lor (peek (tl text)) 32 <> 120); [|lia].
    destruct ds as [|a [|a' ds']]; [congruence| |].
    + destruct T as [->|(c & -> & C1 & C2)]; cbn; [lia|]. apply or20_x'; auto.
      subst input. inversion BY; subst. inversion H2; subst. auto.
    + rewrite Er. cbn. apply or20_x. eapply second_hex. eauto.
Qed.

(** *** number to text *)
Lemma dig_digit_char d : 0 <= d < 16 -> dig (digit_char d) = Some d.
Proof.
  intros. pose proof (byte_cases (fun d => (16 <=? d) || match dig (digit_char d) with Some e => e =? d | None => false end)
   ltac:(vm_compute; reflexivity) d ltac:(lia)) as Q. cbv beta in Q.
  destruct (dig (digit_char d)); [f_equal|]; lia.
Qed.

Lemma pos_from_app base acc a c : pos_from base acc (a ++ c) = pos_from base (pos_from base acc a) c.
Proof. apply fold_left_app. Qed.
Lemma digits_loop_spec n : forall value radix acc, 2 <= radix <= 16 -> 0 <= value < radix ^ Z.of_nat n ->
  exists q, digits_loop n value radix acc = Ok (q ++ acc) /\ Forall (digit_in radix) q /\
    pos_from radix 0 q = value /\ (length q <= n)%nat /\ (0 < value -> exists c q', q = c :: q' /\ dig c <> Some 0) /\ (value = 0 -> q = []).
Proof.
  induction n as [|n]; intros value radix acc R V.
  - cbn in V. assert (value = 0) by lia. subst. exists []. cbn. repeat split; auto; intros; lia.
  - cbn [digits_loop]. destruct (value =? 0) eqn:Z0.
    + assert (value = 0) by lia. subst. exists []. cbn. repeat split; auto; try lia.
    + rewrite Nat2Z.inj_succ, Z.pow_succ_r in V by lia.
      assert (D : 0 <= value mod radix < radix) by (apply Z.mod_pos_bound; lia).
      destruct (IHn (value / radix) radix (digit_char (value mod radix) :: acc) R) as (q & E & F & P & L & H1 & H2).
      { split; [apply Z.div_pos; lia|]. apply Z.div_lt_upper_bound; lia. }
      pose proof (dig_digit_char (value mod radix) ltac:(lia)) as DC.
      exists (q ++ [digit_char (value mod radix)]). repeat split.
      * rewrite <- app_assoc. auto.
      * apply Forall_app; split; auto. constructor; auto. eexists; split; eauto. lia.
      * rewrite pos_from_app, P. unfold pos_from. cbn. rewrite DC.
        pose proof (Z.div_mod value radix ltac:(lia)). lia.
      * rewrite app_length. cbn. lia.
      * intros _. assert (0 <= value / radix) by (apply Z.div_pos; lia).
        destruct (Z.eq_dec (value / radix) 0) as [Q0|Q0].
        -- rewrite (H2 Q0). cbn. eexists _, _. split; [reflexivity|]. rewrite DC. intros Q. inversion Q.
           pose proof (Z.div_mod value radix ltac:(lia)). nia.
        -- destruct H1 as (c & q' & -> & NZ); [lia|]. cbn. eauto.
      * intros; lia.
Qed.

(** reading text in the given radix gives v *)
Definition reads (radix : Z) (input : list Z) (v : Z) (rest : list Z) : Prop :=
  exists b ds text, get_number radix input = T_NUM b ds text rest /\ token_value b ds text = v.

Lemma reads_literal radix input b ds rest v : starts_dec input -> 2 <= radix <= 16 -> Forall is_byte input ->
  literal radix input b ds rest -> positional b ds mod 2 ^ 128 = v -> reads radix input v rest.
Proof.
  intros S R B L V. apply get_number_iff in L as L'; auto. destruct L' as (text & G).
  exists b, ds, text. split; auto. rewrite <- V. eapply get_number_value; eauto.
Qed.

Lemma positional_pos base ds : positional base ds = pos_from base 0 ds.
Proof. reflexivity. Qed.

Lemma digit_byte b ds : Forall (digit_in b) ds -> Forall is_byte ds.
Proof. apply Forall_impl. intros c (d & D & _). apply dig_range in D. unfold is_byte. lia. Qed.

Lemma dec_or_alpha c : hexdig c -> 48 <= c <= 57 \/ 57 < c.
Proof. intros H. unfold hexdig in H. destruct (dig c) eqn:D; [|congruence]. apply dig_range in D. lia. Qed.

Lemma mytoa_nosign bits v radix : 2 <= radix <= 16 -> 0 <= v < radix ^ 33 ->
  exists q, mytoa bits v radix false true = Ok q /\ Forall (digit_in radix) q /\ starts_dec q /\
    positional radix q = v /\ (q = [48] -> v = 0).
Proof.
  intros R V. unfold mytoa. cbn [negb andb]. destruct (v =? 0) eqn:Z0.
  - assert (v = 0) by lia. subst. exists [48]. repeat split; auto; cbn; try lia. 
    constructor; auto. exists 0. split; [reflexivity|lia].
  - destruct (digits_loop_spec 33 v radix [] R) as (q & E & F & P & L & H1 & H2). { change (Z.of_nat 33) with 33; lia. }
    rewrite app_nil_r in E. rewrite E. cbn [bindr app].
    destruct H1 as (c & q' & -> & NZ); [lia|]. cbn [peek hd] in *.
    inversion F as [|? ? (d & D & DL) F2]; subst.
    assert (HX : hexdig c) by (unfold hexdig; congruence).
    destruct (57 <? c) eqn:A.
    + exists (48 :: c :: q'). cbn. repeat split; auto; try lia; try discriminate.
      constructor; auto. exists 0. split; [reflexivity|lia].
    + exists (c :: q'). split; [reflexivity|]. split; [auto|]. split; [unfold starts_dec; cbn [hd]; apply dec_or_alpha in HX; lia|].
      split; [reflexivity|]. intros Q. inversion Q; subst. exfalso. apply NZ. reflexivity.
Qed.

Lemma toa_reads radix v rest : 2 <= radix <= 16 -> 0 <= v < 2 ^ 32 -> delim rest -> Forall is_byte rest ->
  exists t, myltoa v radix false true = Ok t /\ reads radix (t ++ rest) v rest.
Proof.
  intros R V D BY. destruct (mytoa_nosign 32 v radix R) as (q & E & F & S & P & Z0).
  { split; [lia|]. eapply Z.lt_le_trans; [apply V|]. transitivity (2 ^ 33); [lia|]. apply Z.pow_le_mono_l. lia. }
  exists q. split; auto. apply reads_literal with (b := radix) (ds := q); auto.
  - unfold starts_dec in *. destruct q; cbn [app hd] in *; auto; lia.
  - apply Forall_app; split; auto. eapply digit_byte; eauto.
  - apply L_radix; auto. apply D. intros (_ & X). destruct D as (_ & D1 & D2). lia.
  - rewrite P. apply Z.mod_small. lia.
Qed.

Lemma mytoa_sign bits v radix addzero : 2 <= radix <= 16 -> 0 < wrap bits (0 - v) < radix ^ 33 ->
  (exists t, mytoa bits (wrap bits (0 - v)) radix false addzero = Ok t /\ mytoa bits v radix true addzero = Ok (45 :: t)).
Proof.
  intros R V. unfold mytoa. cbn [negb andb]. replace (wrap bits (0 - v) =? 0) with false by lia.
  destruct (digits_loop_spec 33 (wrap bits (0 - v)) radix [] R) as (q & E & F & P & L & H1 & H2). { change (Z.of_nat 33) with 33; lia. }
  rewrite E. cbn [bindr]. eexists. split; reflexivity.
Qed.

Lemma mytoa_dec_addzero bits v a : 0 <= v < 10 ^ 33 -> mytoa bits v 10 false a = mytoa bits v 10 false true.
Proof.
  intros V. unfold mytoa. destruct (negb false && (v =? 0)) eqn:Z0; auto.
  destruct (digits_loop_spec 33 v 10 [] ltac:(lia)) as (q & E & F & P & L & H1 & H2). { change (Z.of_nat 33) with 33; lia. }
  rewrite E. cbn [bindr]. rewrite app_nil_r in *. 
  assert (57 <? peek q = false) as ->.
  { destruct q; cbn; auto. inversion F as [|? ? (d & D & DL) F2]; subst. unfold dig in D.
    repeat match type of D with context [if ?b then _ else _] => destruct b eqn:? end; inversion D; lia. }
  rewrite !andb_false_r. auto.
Qed.

Lemma fmt_reads bits radix v rest : 2 <= radix <= 16 -> bits = 32 \/ bits = 64 -> - 2 ^ (bits - 1) <= v < 2 ^ (bits - 1) ->
  (if radix =? 10 then delim rest else True) -> Forall is_byte rest ->
  exists t, bindr (mytoa bits (wrap bits v) 10 (v <? 0) false) (fun d => Ok (d ++ if radix =? 10 then [] else [116])) = 
     Ok ((if v <? 0 then [45] else []) ++ t) /\ reads radix (t ++ rest) (Z.abs v) rest.
Proof.
  intros R BB V D BY.
  assert (B32 : 2 ^ (bits - 1) < 10 ^ 33 /\ 2 ^ bits = 2 * 2 ^ (bits - 1) /\ 2 ^ bits < 2 ^ 128 /\ 0 < 2 ^ (bits - 1)) by (clear V; destruct BB; subst; vm_compute; repeat split; congruence).
  destruct (mytoa_nosign bits (Z.abs v) 10 ltac:(lia) ltac:(lia)) as (q & E & F & S & P & Z0).
  assert (RD : reads radix ((q ++ if radix =? 10 then [] else [116]) ++ rest) (Z.abs v) rest).
  { assert (SS : forall r, starts_dec (q ++ r)). { intros r. unfold starts_dec in *. destruct q; cbn [app hd] in *; auto; lia. }
    assert (BQ : Forall is_byte q) by (eapply digit_byte; eauto).
    rewrite <- app_assoc. destruct (radix =? 10) eqn:R10.
    - assert (radix = 10) by lia. subst. cbn [app]. apply reads_literal with (b := 10) (ds := q); auto.
      + apply Forall_app; auto.
      + apply L_radix; auto. apply D. intros (_ & X). destruct D as (_ & D1 & D2). lia.
      + rewrite P. apply Z.mod_small. lia.
    - apply reads_literal with (b := 10) (ds := q); auto.
      + apply Forall_app; split; auto. constructor; auto. unfold is_byte; lia.
      + apply L_suffix; auto.
      + rewrite P. apply Z.mod_small. lia. }
  destruct (v <? 0) eqn:NEG.
  - assert (W : wrap bits (0 - wrap bits v) = - v).
    { unfold wrap. rewrite Zminus_mod_idemp_r. replace (0 - v) with (- v) by lia. apply Z.mod_small. lia. }
    destruct (mytoa_sign bits (wrap bits v) 10 false ltac:(lia)) as (t & T1 & T2).
    { rewrite W. lia. }
    rewrite W in T1. rewrite mytoa_dec_addzero in T1 by lia. replace (- v) with (Z.abs v) in T1 by lia.
    rewrite E in T1. inversion T1; subst. rewrite T2. cbn [bindr app]. eexists. split; [reflexivity|]. auto.
  - rewrite wrap_small by lia. rewrite mytoa_dec_addzero by lia. assert (VA : Z.abs v = v) by lia. rewrite VA in *. rewrite E.
    cbn [bindr]. eexists. split; [reflexivity|]. auto.
Qed.

Lemma hex64 v : 0 <= v < 2 ^ 64 -> exists t, num2hex64 v = Ok t /\ length t = 16%nat /\ Forall (digit_in 16) t /\ positional 16 t = v.
Proof.
  intros V. unfold num2hex64. destruct (digits_loop_spec 16 v 16 [] ltac:(lia)) as (q & E & F & P & L & H1 & H2).
  { change (Z.of_nat 16) with 16. change (16 ^ 16) with (2 ^ 64). lia. }
  rewrite E, app_nil_r. cbn [bindr]. eexists. split; [reflexivity|]. repeat split.
  - rewrite app_length, repeat_length. lia.
  - apply Forall_app; split; auto. apply Forall_forall. intros x I. apply repeat_spec in I. subst. exists 0. split; [reflexivity|lia].
  - rewrite positional_pos, pos_from_app. rewrite <- P. f_equal.
    induction (16 - length q)%nat; cbn; auto.
Qed.
