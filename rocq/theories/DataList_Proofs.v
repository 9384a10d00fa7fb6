From Verif Require Import Base Expr_Spec Expr_Model Data_Model Data_Spec Data_Proofs.

(** * Strings *)
Lemma store_string_spec : forall v s, 0 < nb v -> literals v = false ->
  match string_bytes (nb v) s with
  | None => store_string v s = Err
  | Some bs => exists evs, store_string v s = Ok evs /\ flat_map event_cells evs = map Some bs
  end.
Proof.
  intros v s Hn Hl. unfold store_string, string_bytes. rewrite Hl. cbn [negb andb orb]. rewrite !andb_true_r, !andb_false_r. rewrite !Z.gtb_ltb.
  pose proof (zlen_nonneg s) as L.
  destruct (zlen s =? 0) eqn:E0; [reflexivity|].
  destruct (nb v =? 1) eqn:E1; cbn [negb andb].
  - assert (nb v = 1) as -> by lia. change (1 <? 1) with false. rewrite !andb_false_r.
    rewrite ?(proj2 (Z.ltb_ge (zlen s) 1)) by lia. cbn [andb].
    eexists. split; [reflexivity|]. cbn [flat_map event_cells app]. rewrite app_nil_r. reflexivity.
  - destruct (nb v <? zlen s) eqn:E2; [reflexivity|].
    rewrite (proj2 (Z.ltb_lt 1 (nb v))) by lia. rewrite andb_true_r.
    assert ((if 1 <? zlen s then little_endian s else s) = rev s) as ->.
    { destruct (1 <? zlen s) eqn:E3; [reflexivity|]. destruct s as [|a [|b s]]; [reflexivity|reflexivity|].
      rewrite !zlen_cons in E3. pose proof (zlen_nonneg s). lia. }
    eexists. split; [reflexivity|]. cbn [flat_map event_cells app]. rewrite map_app. f_equal.
    destruct (zlen s <? nb v) eqn:E4; cbn [flat_map event_cells app].
    + rewrite app_nil_r. reflexivity.
    + replace (nb v - zlen s) with 0 by lia. reflexivity.
Qed.

(** * The effect of a list on the state *)
Definition T (l : loc) : Z := l_length (lab (st l)) + total l.
Definition Sz (v : env) (l : loc) : Z := l_size (lab (st l)) + total l * nb v.
Definition cong (a b : Z) : Prop := a mod 2 ^ 32 = b mod 2 ^ 32.
Definition dims (s : state) : Z * Z := (l_first_length (lab s), l_first_size (lab s)).
Definition effect (v : env) (l l' : loc) (cs : list cell) (k : Z) (arr : bool) : Prop :=
  image (st l') = image (st l) ++ cs /\
  (named v = true ->
    cong (T l') (T l + k) /\ cong (Sz v l') (Sz v l + k * nb v) /\
    l_array (lab (st l')) = l_array (lab (st l)) || arr /\
    (first l = false -> first l' = false /\ dims (st l') = dims (st l))).

Lemma cong_refl : forall a, cong a a. Proof. reflexivity. Qed.
Lemma cong_u32 : forall a b, cong a b -> cong (u32 a) b.
Proof. intros a b H. unfold cong, u32, wrap in *. rewrite Z.mod_mod by lia. exact H. Qed.
Lemma cong_add : forall a b c d, cong a b -> cong c d -> cong (a + c) (b + d).
Proof. intros a b c d H H'. unfold cong in *. rewrite (Z.add_mod a c), (Z.add_mod b d) by lia. rewrite H, H'. reflexivity. Qed.
Lemma cong_mul : forall a b c, cong a b -> cong (a * c) (b * c).
Proof. intros a b c H. unfold cong in *. rewrite (Z.mul_mod a c), (Z.mul_mod b c) by lia. rewrite H. reflexivity. Qed.
Lemma cong_trans : forall a b c, cong a b -> cong b c -> cong a c.
Proof. unfold cong. intros. congruence. Qed.
Lemma cong_eq : forall a b, a = b -> cong a b. Proof. intros. subst. reflexivity. Qed.

Lemma effect_trans : forall v l l' l'' cs cs' k k' a a',
  effect v l l' cs k a -> effect v l' l'' cs' k' a' -> effect v l l'' (cs ++ cs') (k + k') (a || a').
Proof.
  intros v l l' l'' cs cs' k k' a a' (I1 & H1) (I2 & H2). split; [rewrite I2, I1, app_assoc; reflexivity|].
  intros Nm. destruct (H1 Nm) as (A1 & B1 & C1 & D1). destruct (H2 Nm) as (A2 & B2 & C2 & D2).
  split; [|split; [|split]].
  - eapply cong_trans; [exact A2|]. rewrite Z.add_assoc. apply cong_add; [exact A1|apply cong_refl].
  - eapply cong_trans; [exact B2|]. rewrite Z.mul_add_distr_r, Z.add_assoc. apply cong_add; [exact B1|apply cong_refl].
  - rewrite C2, C1, orb_assoc. reflexivity.
  - intros F. destruct (D1 F) as [F1 E1]. destruct (D2 F1) as [F2 E2]. split; [exact F2|congruence].
Qed.
Lemma effect_refl : forall v l, effect v l l [] 0 false.
Proof.
  intros v l. split; [rewrite app_nil_r; reflexivity|]. intros _. split; [apply cong_eq; lia|]. split; [apply cong_eq; lia|].
  split; [rewrite orb_false_r; reflexivity|]. auto.
Qed.

Lemma image_emit : forall s e, image (emit s e) = image s ++ event_cells e.
Proof. intros s e. unfold image, emit. cbn [out rev]. rewrite flat_map_app. cbn [flat_map]. rewrite app_nil_r. reflexivity. Qed.
Lemma image_evs : forall o lb evs, image {| out := rev evs ++ o; lab := lb |} = flat_map event_cells (rev o) ++ flat_map event_cells evs.
Proof. intros. unfold image. cbn [out]. rewrite rev_app_distr, rev_involutive, flat_map_app. reflexivity. Qed.
Lemma image_array : forall s, image (set_array s) = image s. Proof. reflexivity. Qed.
Lemma image_first : forall s a b, image (set_first s a b) = image s. Proof. reflexivity. Qed.
Lemma image_total : forall s a b, image (add_total s a b) = image s. Proof. reflexivity. Qed.

(** item_done *)
Definition tail_ok (ts : list dtok) : Prop := ends ts = true.
Lemma next_end : forall v again l ts stop, tail_ok ts ->
  exists l', next v again l ts stop = Good {| rest := ts; after := l'; stop := stop |} /\ effect v l l' [] 0 false /\
    dims (st l') = (if named v && first l then (u32 (total l), u32 (total l * nb v)) else dims (st l)).
Proof.
  intros v again l ts stop H. exists {| total := total l; first := first l; st := if named v && first l then set_first (st l) (total l) (total l * nb v) else st l |}.
  split.
  - unfold next, item_done. destruct ts as [|t r]; [reflexivity|]. destruct t; try discriminate H. reflexivity.
  - split.
    + split; [cbn [st]; rewrite app_nil_r; destruct (_ && _); reflexivity|]. intros Nm. rewrite Nm. cbn [andb].
      unfold T, Sz. cbn [total st]. destruct (first l) eqn:F; cbn [set_first lab l_length l_size l_array andb];
        (split; [apply cong_eq; lia|]; split; [apply cong_eq; lia|]; split; [rewrite orb_false_r; reflexivity|]); intros C; [discriminate|auto].
    + cbn [st]. destruct (_ && _); reflexivity.
Qed.
Lemma next_more : forall v again l ts stop, ends ts = false ->
  exists l', next v again l (DComma :: ts) stop = again l' ts /\ effect v l l' [] 0 true /\ first l' = false /\ total l' = total l /\
    dims (st l') = (if named v && first l then (u32 (total l), u32 (total l * nb v)) else dims (st l)).
Proof.
  intros v again l ts stop H.
  exists {| total := total l; first := false; st := set_array (if named v && first l then set_first (st l) (total l) (total l * nb v) else st l) |}.
  split; [unfold next, item_done; rewrite H; reflexivity|]. split.
  - split; [cbn [st]; rewrite app_nil_r, image_array; destruct (_ && _); reflexivity|]. intros Nm. rewrite Nm. cbn [andb].
    unfold T, Sz. cbn [total st]. destruct (first l) eqn:F; cbn [set_array set_first lab l_length l_size l_array first];
      (split; [apply cong_eq; lia|]; split; [apply cong_eq; lia|]; split; [rewrite orb_true_r; reflexivity|]); intros C; [discriminate|auto].
  - split; [reflexivity|]. split; [reflexivity|]. cbn [st]. destruct (_ && _); reflexivity.
Qed.

(** * Skipping the operand of 0 DUP *)
Section item_ind.
  Variable P : item -> Prop.
  Hypothesis Hn : forall e, P (Num e).
  Hypothesis Hs : forall s, P (Str s).
  Hypothesis Hq : P Quest.
  Hypothesis Hd : forall c b, Forall P b -> P (Dup c b).
  Fixpoint item_ind' (i : item) : P i :=
    match i with
    | Num e => Hn e | Str s => Hs s | Quest => Hq
    | Dup c b => Hd c b ((fix go (b : list item) : Forall P b := match b with [] => Forall_nil _ | i :: r => Forall_cons _ (item_ind' i) (go r) end) b)
    end.
End item_ind.
Lemma toks_dup : forall c b, toks (Dup c b) = DConst c :: DDup :: DOpen :: list_toks b ++ [DClose].
Proof. reflexivity. Qed.
Lemma skip_item : forall i level r, skip (S level) (toks i ++ r) = skip (S level) r.
Proof.
  intros i. apply (item_ind' (fun i => forall level r, skip (S level) (toks i ++ r) = skip (S level) r)); try reflexivity.
  intros c b F level r. rewrite toks_dup. cbn [app skip]. rewrite <- app_assoc. cbn [app].
  assert (forall l q, Forall (fun i => forall level r, skip (S level) (toks i ++ r) = skip (S level) r) l ->
    forall lv, skip (S lv) (flat_map (fun i => DComma :: toks i) l ++ q) = skip (S lv) q) as G.
  { induction l as [|x l IH]; intros q Fl lv; [reflexivity|]. inversion Fl; subst. cbn [flat_map app skip]. rewrite <- app_assoc. rewrite H1. apply IH. assumption. }
  destruct b as [|x b]; cbn [list_toks app skip]; [reflexivity|].
  inversion F; subst. rewrite <- app_assoc. rewrite H1. rewrite G by assumption. reflexivity.
Qed.
Lemma skip_list : forall l level r, skip (S level) (list_toks l ++ r) = skip (S level) r.
Proof.
  intros [|i l] level r; [reflexivity|]. cbn [list_toks]. rewrite <- app_assoc, skip_item.
  induction l as [|x l IH]; [reflexivity|]. cbn [flat_map app skip]. rewrite <- app_assoc, skip_item. exact IH.
Qed.

(** * One item *)
Lemma wf_dup : forall c b, wf (Dup c b) = (word64 c /\ wfs b).
Proof. intros c b. cbn [wf]. f_equal. Qed.
Definition arr1 (n : Z) (i : item) : bool := match i with Num _ | Quest => false | Str s => ((n =? 1) || (n =? 2)) && (1 <? zlen s) | Dup _ _ => true end.
Definition cnt (n : Z) (l : list item) : Z := sum (map (count n) l).
Definition whole (start : bool) (l : list item) : bool := start && match l with [Quest] => true | _ => false end.
Definition dim32 (p : Z * Z) : Z * Z := (u32 (fst p), u32 (snd p)).
Definition L0 (f : bool) (s : state) : loc := {| total := 0; first := f; st := s |}.

Definition specA (n : nat) : Prop := forall v is tail start dup l,
  0 < nb v -> literals v = false -> wfs is -> is <> [] -> tail_ok tail -> (2 * length (list_toks is ++ tail) + 1 <= n)%nat -> 1 <= dup ->
  match list_cells (nb v) is with
  | None => items n v start dup l (list_toks is ++ tail) = Bad_
  | Some cs =>
      let m := if whole start is then dup else 1 in
      exists o, items n v start dup l (list_toks is ++ tail) = Good o /\ rest o = tail /\ stop o = whole start is /\
       (zlen cs * m < 2 ^ 32 ->
        effect v l (after o) (times m cs) (m * cnt (nb v) is) (is_array (nb v) is) /\
        (named v = true -> first l = true -> total l = 0 -> dup = 1 -> dims (st (after o)) = dim32 (first_dim (nb v) is)))
  end.
Definition specB (n : nat) : Prop := forall v is tail dup f s,
  0 < nb v -> literals v = false -> wfs is -> is <> [] -> tail_ok tail -> (2 * length (list_toks is ++ tail) + 2 <= n)%nat -> 1 <= dup ->
  match list_cells (nb v) is with
  | None => data_item n v dup f s (list_toks is ++ tail) = Bad_
  | Some cs =>
      exists s', data_item n v dup f s (list_toks is ++ tail) = Good (s', tail) /\
       (zlen cs * dup < 2 ^ 32 ->
        effect v (L0 f s) (L0 f s') (times dup cs) (dup * cnt (nb v) is) (is_array (nb v) is) /\
        (named v = true -> f = true -> dup = 1 -> dims s' = dim32 (first_dim (nb v) is)))
  end.

Definition after_item (q : list dtok) : Prop := match q with DComma :: _ => True | _ => tail_ok q end.
Lemma effect_emit : forall v l e, effect v l {| total := u32 (total l + 1); first := first l; st := emit (st l) e |} (event_cells e) 1 false.
Proof.
  intros v l e. split; [apply image_emit|]. intros _. unfold T, Sz. cbn [total st emit lab first].
  split; [|split; [|split; [rewrite orb_false_r; reflexivity|auto]]].
  - rewrite <- Z.add_assoc. apply cong_add; [apply cong_refl|]. apply cong_u32, cong_refl.
  - rewrite <- Z.add_assoc. apply cong_add; [apply cong_refl|].
    eapply cong_trans; [apply cong_mul, cong_u32, cong_refl|]. apply cong_eq. lia.
Qed.

Lemma repeats_swrap : forall c, (if 2 ^ 31 <=? repeats c then swrap 32 (ll c) < 0 else swrap 32 (ll c) = repeats c) /\ 0 <= repeats c.
Proof.
  intros c. unfold repeats, swrap. change (32 - 1) with 31. change (2 ^ 31) with 2147483648. change (2 ^ 32) with 4294967296.
  rewrite <- (Z.add_mod_idemp_l (ll c) 2147483648 4294967296) by lia.
  pose proof (Z.mod_pos_bound (ll c) 4294967296 ltac:(lia)) as B. set (k := ll c mod 4294967296) in *.
  split; [|lia]. destruct (2147483648 <=? k) eqn:E.
  - replace (k + 2147483648) with ((k - 2147483648) + 1 * 4294967296) by lia. rewrite Z.mod_add, Z.mod_small by lia. lia.
  - rewrite Z.mod_small by lia. lia.
Qed.
Lemma not_ends_toks : forall i r, ends (toks i ++ r) = false.
Proof. intros [] r; reflexivity. Qed.

Lemma times_zlen : forall A k (l : list A), 0 <= k -> zlen (times k l) = k * zlen l.
Proof.
  intros A k l H. unfold times. rewrite <- (Z2Nat.id k H) at 2. generalize (Z.to_nat k). intros n.
  induction n as [|n IH]; [reflexivity|]. cbn [repeat concat]. rewrite zlen_app, IH. lia.
Qed.

Lemma step : forall n, specB n -> forall v i q start dup l,
  0 < nb v -> literals v = false -> wf i -> after_item q -> (2 * length (toks i ++ q) + 1 <= S n)%nat ->
  (i = Quest -> start = true -> exists q', q = DComma :: q') ->
  match cells (nb v) i with
  | None => items (S n) v start dup l (toks i ++ q) = Bad_
  | Some cs =>
      exists l1, items (S n) v start dup l (toks i ++ q) = next v (items n v false dup) l1 q false /\
       (zlen cs < 2 ^ 32 ->
        effect v l l1 cs (count (nb v) i) (arr1 (nb v) i) /\
        (named v = true -> first l = true -> total l = 0 ->
          (first l1 = true /\ total l1 = 1 /\ first_dim (nb v) [i] = (1, nb v)) \/ (first l1 = false /\ dims (st l1) = dim32 (first_dim (nb v) [i]))))
  end.
Proof.
  intros n HB v i q start dup l Hn Hl W Q F HQ. destruct i as [e|s| |c b].
  - cbn [cells toks app]. pose proof (store_const_spec (nb v) e Hn W) as S1.
    assert (items (S n) v start dup l (DConst e :: q) = abind (of_res (store_const (nb v) e)) (fun bs =>
          next v (items n v false dup) {| total := u32 (total l + 1); first := first l; st := emit (st l) (Bytes bs) |} q false)) as E.
    { cbn [items]. destruct q as [|t q]; [reflexivity|]. destruct t; try discriminate Q; try contradiction; reflexivity. }
    rewrite E, S1. destruct (const_bytes (nb v) e) as [bs|]; cbn [option_map as_res of_res abind]; [|reflexivity].
    eexists. split; [reflexivity|]. intros _. split; [apply effect_emit|]. intros _ F1 T0. left. cbn [total first]. rewrite T0. auto.
  - cbn [cells toks app]. pose proof (store_string_spec v s Hn Hl) as S1.
    assert (items (S n) v start dup l (DStr s :: q) = abind (of_res (store_string v s)) (fun evs =>
          let '(k, array) := string_items v s in
          let s1 := if array then set_array (st l) else st l in
          let s2 := if array && first l then set_first s1 1 (nb v) else s1 in
          next v (items n v false dup) {| total := u32 (total l + k); first := first l && negb array; st := {| out := rev evs ++ out s2; lab := lab s2 |} |} q false)) as E.
    { cbn [items]. destruct q as [|t q]; [reflexivity|]. destruct t; try discriminate Q; try contradiction; reflexivity. }
    rewrite E. clear E. destruct (string_bytes (nb v) s) as [bs|] eqn:EB; cbn [option_map]; [|rewrite S1; reflexivity].
    destruct S1 as (evs & -> & HE). cbn [of_res abind].
    assert (0 < zlen s) as Ls.
    { unfold string_bytes in EB. destruct (zlen s =? 0) eqn:Z0; [discriminate|]. pose proof (zlen_nonneg s). lia. }
    destruct (string_items v s) as [k array] eqn:SI. eexists. split; [reflexivity|]. intros _.
    assert (named v = true -> k = count (nb v) (Str s) /\ array = arr1 (nb v) (Str s)) as SIN.
    { intros Nm. unfold string_items in SI. rewrite Nm in SI. cbn [negb count arr1] in *. rewrite Z.gtb_ltb in SI.
      destruct ((nb v =? 1) || (nb v =? 2)); cbn [andb] in *; [|injection SI as <- <-; auto].
      destruct (1 <? zlen s) eqn:L1; injection SI as <- <-; [auto|]. split; [lia|reflexivity]. }
    split.
    + split.
      * cbn [st]. rewrite image_evs, HE. f_equal. destruct array; cbn [andb]; [|reflexivity]. destruct (first l); reflexivity.
      * intros Nm. destruct (SIN Nm) as [-> Ea]. rewrite <- Ea. unfold T, Sz. cbn [total st lab first].
        split; [|split; [|split]].
        -- rewrite <- Z.add_assoc. apply cong_add; [apply cong_eq; destruct array; cbn [andb]; [destruct (first l)|]; reflexivity|apply cong_u32, cong_refl].
        -- rewrite <- Z.add_assoc. apply cong_add; [apply cong_eq; destruct array; cbn [andb]; [destruct (first l)|]; reflexivity|].
           eapply cong_trans; [apply cong_mul, cong_u32, cong_refl|]. apply cong_eq. lia.
        -- destruct array; cbn [andb]; [destruct (first l); cbn [set_first set_array lab l_array]; rewrite orb_true_r; reflexivity|rewrite orb_false_r; reflexivity].
        -- intros F0. rewrite F0. cbn [andb]. split; [reflexivity|]. rewrite andb_false_r. destruct array; reflexivity.
    + intros Nm F1 T0. destruct (SIN Nm) as [Ek Ea]. cbn [first total st]. rewrite F1. cbn [andb].
      destruct array; cbn [negb andb].
      * right. split; [reflexivity|]. reflexivity.
      * left. split; [reflexivity|]. split; [|reflexivity]. rewrite T0.
        assert (k = 1) as ->.
        { rewrite Ek. cbn [count arr1] in *. destruct ((nb v =? 1) || (nb v =? 2)); [|reflexivity]. cbn [andb] in Ea. symmetry in Ea. lia. }
        reflexivity.
  - cbn [cells toks app].
    exists {| total := u32 (total l + 1); first := first l; st := emit (st l) (Space (nb v)) |}. split.
    + cbn [items]. destruct start.
      * destruct (HQ eq_refl eq_refl) as (q' & ->). reflexivity.
      * rewrite andb_false_r. reflexivity.
    + intros _. split; [apply effect_emit|]. intros _ F1 T0. left. cbn [total first]. rewrite T0. auto.
  - rewrite wf_dup in W. destruct W as [Wc Wb]. cbn [cells]. rewrite toks_dup in *. cbn [app] in *.
    destruct (repeats_swrap c) as [RS R0].
    assert (items (S n) v start dup l (DConst c :: DDup :: DOpen :: (list_toks b ++ [DClose]) ++ q) =
      if swrap 32 (ll c) <? 0 then Bad_ else
      abind (if swrap 32 (ll c) =? 0 then Good (set_array (st l), skip 1 ((list_toks b ++ [DClose]) ++ q)) else data_item n v (swrap 32 (ll c)) (first l) (set_array (st l)) ((list_toks b ++ [DClose]) ++ q)) (fun x =>
                   let '(s, r) := x in
                   match r with
                   | DClose :: r =>
                       let s := if named v && first l then set_first s (swrap 32 (ll c)) (swrap 32 (ll c) * nb v) else s in
                       next v (items n v false dup) {| total := total l; first := first l && negb (named v); st := s |} r false
                   | _ => Bad_
                   end)) as E by reflexivity.
    rewrite E. clear E. rewrite <- app_assoc in *. cbn [app] in *.
    destruct (2 ^ 31 <=? repeats c) eqn:EB.
    { rewrite (proj2 (Z.ltb_lt _ 0)) by exact RS. reflexivity. }
    rewrite RS. rewrite (proj2 (Z.ltb_ge _ 0)) by exact R0.
    assert (forall s', effect v (L0 (first l) (set_array (st l))) (L0 (first l) s') match (if repeats c =? 0 then Some [] else match b with [] => None | _ => option_map (times (repeats c)) (all (map (cells (nb v)) b)) end) with Some cs => cs | None => [] end (repeats c * cnt (nb v) b) true ->
      let l1 := {| total := total l; first := first l && negb (named v); st := if named v && first l then set_first s' (repeats c) (repeats c * nb v) else s' |} in
      effect v l l1 match (if repeats c =? 0 then Some [] else match b with [] => None | _ => option_map (times (repeats c)) (all (map (cells (nb v)) b)) end) with Some cs => cs | None => [] end (count (nb v) (Dup c b)) true /\
      (named v = true -> first l = true -> total l = 0 -> (first l1 = true /\ total l1 = 1 /\ first_dim (nb v) [Dup c b] = (1, nb v)) \/ (first l1 = false /\ dims (st l1) = dim32 (first_dim (nb v) [Dup c b])))) as KK.
    { intros s' (I1 & E1) l1. split.
      - split.
        + subst l1. cbn [st L0] in *. rewrite image_array in I1. rewrite <- I1. destruct (_ && _); reflexivity.
        + intros Nm. destruct (E1 Nm) as (A1 & B1 & C1 & D1). unfold T, Sz in *. subst l1. rewrite Nm. cbn [L0 total st first andb negb] in *.
          cbn [set_array lab l_length l_size l_array dims] in *. rewrite !Z.add_0_r in A1. rewrite !Z.mul_0_l, !Z.add_0_r in B1.
          split; [|split; [|split]].
          * replace (l_length (lab (st l)) + total l + count (nb v) (Dup c b)) with (l_length (lab (st l)) + repeats c * cnt (nb v) b + total l) by (cbn [count]; fold (cnt (nb v) b); lia).
            apply cong_add; [|apply cong_refl]. destruct (first l); exact A1.
          * replace (l_size (lab (st l)) + total l * nb v + count (nb v) (Dup c b) * nb v) with (l_size (lab (st l)) + repeats c * cnt (nb v) b * nb v + total l * nb v) by (cbn [count]; fold (cnt (nb v) b); lia).
            apply cong_add; [|apply cong_refl]. destruct (first l); exact B1.
          * rewrite orb_true_r in *. destruct (first l); exact C1.
          * intros F0. rewrite F0 in *. destruct (D1 eq_refl) as [_ D2]. split; [reflexivity|exact D2].
      - intros Nm F1 T0. right. subst l1. rewrite Nm, F1. cbn [andb negb st first]. split; reflexivity. }
    destruct (repeats c =? 0) eqn:EZ.
    + rewrite (skip_list b 0). cbn [skip abind]. eexists. split; [reflexivity|]. intros _.
      apply KK. assert (repeats c = 0) as -> by lia. rewrite Z.mul_0_l.
      pose proof (effect_refl v (L0 (first l) (set_array (st l)))) as [I1 R1]. split; [exact I1|]. intros Nm. destruct (R1 Nm) as (A1 & B1 & C1 & D1).
      split; [exact A1|]. split; [exact B1|]. split; [|exact D1]. cbn. reflexivity.
    + destruct b as [|x b].
      * destruct n as [|n']; [cbn [length] in F; lia|]. cbn [list_toks app data_item].
        destruct (Z.to_nat (repeats c)) as [|k] eqn:EK; [lia|]. cbn [run_loop].
        destruct n' as [|n'']; [cbn [length list_toks app] in F; lia|]. reflexivity.
      * specialize (HB v (x :: b) (DClose :: q) (repeats c) (first l) (set_array (st l)) Hn Hl Wb ltac:(discriminate) eq_refl).
        assert (2 * length (list_toks (x :: b) ++ DClose :: q) + 2 <= n)%nat as F2 by (cbn [length] in F; lia).
        specialize (HB F2 ltac:(lia)). unfold list_cells in HB.
        destruct (all (map (cells (nb v)) (x :: b))) as [cs|] eqn:EC; cbn [option_map].
        -- destruct HB as (s' & -> & HB). cbn [abind].
           eexists. split; [reflexivity|]. intros ZL. rewrite times_zlen in ZL by lia. destruct (HB ltac:(lia)) as (EF & _). apply KK. cbn [option_map].
           destruct EF as [I1 R1]. split; [exact I1|]. intros Nm. destruct (R1 Nm) as (A1 & B1 & C1 & D1).
           split; [exact A1|]. split; [exact B1|]. split; [|exact D1]. rewrite C1. cbn. reflexivity.
        -- rewrite HB. reflexivity.
Qed.

Lemma times_1 : forall A (l : list A), times 1 l = l.
Proof. intros. unfold times. cbn. apply app_nil_r. Qed.
Lemma all_cons : forall A (x : option (list A)) r, all (x :: r) = match x, all r with Some a, Some b => Some (a ++ b) | _, _ => None end.
Proof. reflexivity. Qed.

Lemma specA_step : forall n, specA n -> specB n -> specA (S n).
Proof.
  intros n HA HB v is tail start dup l Hn Hl W NE TO F Hd.
  destruct is as [|i r]; [congruence|]. destruct W as [Wi Wr].
  destruct (whole start (i :: r)) eqn:EW.
  - (* a single ? *)
    unfold whole in EW. destruct start; [|discriminate]. destruct i; try discriminate. destruct r; [|discriminate].
    cbn [list_cells map cells all]. rewrite app_nil_r. cbv zeta. cbn [list_toks toks flat_map app].
    assert (@zlen cell (repeat None (Z.to_nat (nb v))) = nb v) as ZR by (unfold zlen; rewrite repeat_length; lia).
    rewrite ZR.
    destruct (next_end v (items n v false dup) {| total := u32 (total l + dup); first := first l; st := emit (st l) (Space (u32 (nb v * dup))) |} tail true TO) as (l' & E & EF & DI).
    exists {| rest := tail; after := l'; stop := true |}. split; [|split; [reflexivity|split; [reflexivity|intros ZL; split]]].
    + cbn [items]. rewrite <- E. destruct tail as [|t tail]; [reflexivity|]. destruct t; try discriminate TO. reflexivity.
    + cbn [after]. replace (@times cell dup (repeat None (Z.to_nat (nb v)))) with (event_cells (Space (u32 (nb v * dup))) ++ []).
      2:{ rewrite app_nil_r. cbn [event_cells]. unfold u32, wrap. rewrite Z.mod_small by lia. unfold times.
          rewrite Z2Nat.inj_mul by lia. generalize (Z.to_nat dup). intros k. induction k as [|k IH]; [rewrite Nat.mul_0_r; reflexivity|].
          rewrite Nat.mul_succ_r, Nat.add_comm, repeat_app. cbn [repeat concat]. rewrite IH. reflexivity. }
      replace (dup * cnt (nb v) [Quest]) with (dup + 0) by (unfold cnt; cbn; lia).
      change (is_array (nb v) [Quest]) with (false || false).
      eapply effect_trans; [|exact EF].
      split; [apply image_emit|]. intros _. unfold T, Sz. cbn [total st emit lab first].
      split; [|split; [|split; [rewrite orb_false_r; reflexivity|auto]]].
      * rewrite <- Z.add_assoc. apply cong_add; [apply cong_refl|]. apply cong_u32, cong_refl.
      * rewrite <- Z.add_assoc. apply cong_add; [apply cong_refl|].
        eapply cong_trans; [apply cong_mul, cong_u32, cong_refl|]. apply cong_eq. lia.
    + intros Nm F1 T0 D1. cbn [after]. rewrite DI. cbn [first total]. rewrite Nm, F1, T0, D1.
      cbn [andb]. unfold dim32. cbn [first_dim fst snd]. change (u32 (0 + 1)) with 1. rewrite Z.mul_1_l. reflexivity.
  - (* items one after the other *)
    cbn [list_cells map]. rewrite all_cons.
    assert (list_toks (i :: r) ++ tail = toks i ++ match r with [] => tail | _ => DComma :: list_toks r ++ tail end) as EL.
    { cbn [list_toks]. rewrite <- app_assoc. destruct r as [|i2 r]; [reflexivity|]. cbn [flat_map list_toks app]. reflexivity. }
    rewrite EL in *. set (q := match r with [] => tail | _ => DComma :: list_toks r ++ tail end) in *.
    pose proof (step n HB v i q start dup l Hn Hl Wi) as ST.
    assert (after_item q) as AQ. { subst q. destruct r; [destruct tail as [|[] tail]; try discriminate TO; exact TO|exact Logic.I]. }
    specialize (ST AQ F).
    assert (i = Quest -> start = true -> exists q', q = DComma :: q') as HQ.
    { intros -> ->. subst q. destruct r; [discriminate EW|]. eexists. reflexivity. }
    specialize (ST HQ).
    destruct (cells (nb v) i) as [c1|]; [|exact ST].
    destruct ST as (l1 & -> & ST).
    destruct r as [|i2 r].
    + cbn [all map]. rewrite app_nil_r. cbv zeta. subst q.
      destruct (next_end v (items n v false dup) l1 tail false TO) as (l2 & -> & EF2 & DI2).
      eexists. split; [reflexivity|]. split; [reflexivity|]. split; [reflexivity|]. intros ZL. destruct (ST ltac:(lia)) as (EF & DI). cbn [after]. split.
      * rewrite times_1. rewrite <- (app_nil_r c1). replace (1 * cnt (nb v) [i]) with (count (nb v) i + 0) by (unfold cnt; cbn [map sum fold_right]; lia).
        replace (is_array (nb v) [i]) with (arr1 (nb v) i || false) by (rewrite orb_false_r; destruct i; reflexivity).
        eapply effect_trans; eassumption.
      * intros Nm F1 T0 _. rewrite DI2. destruct (DI Nm F1 T0) as [(G1 & G2 & G3)|(G1 & G2)].
        -- rewrite Nm, G1, G2, G3. cbn [andb]. unfold dim32. cbn [fst snd]. rewrite Z.mul_1_l. reflexivity.
        -- rewrite Nm, G1. exact G2.
    + assert (2 * length (list_toks (i2 :: r) ++ tail) + 1 <= n)%nat as F2.
      { subst q. rewrite app_length in F. cbn [length] in F. lia. }
      subst q.
      assert (ends (list_toks (i2 :: r) ++ tail) = false) as NE2 by (cbn [list_toks]; rewrite <- app_assoc; apply not_ends_toks).
      destruct (next_more v (items n v false dup) l1 (list_toks (i2 :: r) ++ tail) false NE2) as (l2 & -> & EF2 & F2' & T2 & DI2).
      pose proof (HA v (i2 :: r) tail false dup l2 Hn Hl Wr ltac:(discriminate) TO F2 Hd) as IH. unfold list_cells in IH.
      destruct (all (map (cells (nb v)) (i2 :: r))) as [c2|] eqn:EC; [|exact IH].
      change (whole false (i2 :: r)) with false in IH. rewrite times_1, Z.mul_1_l in IH.
      cbv zeta. destruct IH as (o & E1 & E2 & E3 & E4). exists o.
      split; [exact E1|]. split; [exact E2|]. split; [exact E3|]. intros ZL. rewrite zlen_app in ZL. pose proof (zlen_nonneg c1). pose proof (zlen_nonneg c2).
      destruct (ST ltac:(lia)) as (EF & DI). destruct (E4 ltac:(lia)) as (E5 & _). split.
      * rewrite times_1.
        replace (1 * cnt (nb v) (i :: i2 :: r)) with (count (nb v) i + (0 + cnt (nb v) (i2 :: r))) by (unfold cnt; cbn [map sum fold_right]; lia).
        replace (is_array (nb v) (i :: i2 :: r)) with (arr1 (nb v) i || (true || is_array (nb v) (i2 :: r))) by (rewrite orb_true_l, orb_true_r; destruct i; reflexivity).
        change (c1 ++ c2) with (c1 ++ ([] ++ c2)).
        eapply effect_trans; [exact EF|]. eapply effect_trans; eassumption.
      * intros Nm F1 T0 _. destruct E5 as [_ E5]. destruct (E5 Nm) as (_ & _ & _ & D4). destruct (D4 F2') as [_ ->]. rewrite DI2.
        replace (first_dim (nb v) (i :: i2 :: r)) with (first_dim (nb v) [i]) by (destruct i; reflexivity).
        destruct (DI Nm F1 T0) as [(G1 & G2 & G3)|(G1 & G2)].
        -- rewrite Nm, G1, G2, G3. cbn [andb]. unfold dim32. cbn [fst snd]. rewrite Z.mul_1_l. reflexivity.
        -- rewrite Nm, G1. exact G2.
Qed.

Lemma specB_step : forall n, specA n -> specB (S n).
Proof.
  intros n HA v is tail dup f s Hn Hl W NE TO F Hd.
  assert (forall d l, 1 <= d -> _) as HI by (intros d l Hd'; exact (HA v is tail true d l Hn Hl W NE TO ltac:(lia) Hd')).
  cbn [data_item]. destruct (list_cells (nb v) is) as [cs|].
  2:{ destruct (Z.to_nat dup) as [|k] eqn:EK; [lia|]. cbn [run_loop]. rewrite HI by lia. reflexivity. }
  assert (exists l', run_loop (fun d l => items n v true d l (list_toks is ++ tail)) (Z.to_nat dup) (L0 f s) (list_toks is ++ tail) = Good (l', tail) /\
    (zlen cs * dup < 2 ^ 32 -> effect v (L0 f s) l' (times dup cs) (dup * cnt (nb v) is) (is_array (nb v) is) /\
      (named v = true -> f = true -> dup = 1 -> dims (st l') = dim32 (first_dim (nb v) is)))) as (l' & E & EF).
  { destruct (whole true is) eqn:EW.
    - destruct (Z.to_nat dup) as [|k] eqn:EK; [lia|]. cbn [run_loop]. rewrite <- EK, Z2Nat.id by lia.
      destruct (HI dup (L0 f s) Hd) as (o & -> & E2 & E3 & E4). cbn [abind]. rewrite E3, E2. exists (after o). split; [reflexivity|].
      intros ZL. destruct (E4 ZL) as [E5 E6]. split; [exact E5|]. intros Nm F1. apply E6; [exact Nm|exact F1|reflexivity].
    - assert (forall k l r, exists l', run_loop (fun d l => items n v true d l (list_toks is ++ tail)) k l r = Good (l', if Nat.eqb k 0 then r else tail) /\
        (zlen cs < 2 ^ 32 -> effect v l l' (concat (repeat cs k)) (Z.of_nat k * cnt (nb v) is) (if Nat.eqb k 0 then false else is_array (nb v) is) /\
         (named v = true -> first l = true -> total l = 0 -> k = 1%nat -> dims (st l') = dim32 (first_dim (nb v) is)))) as G.
      { induction k as [|k IH]; intros l r.
        - exists l. split; [reflexivity|]. intros _. split; [apply effect_refl|]. intros _ _ _ C. discriminate.
        - cbn [run_loop]. destruct (HI (Z.of_nat (S k)) l ltac:(lia)) as (o & -> & E2 & E3 & E4). cbn [abind]. rewrite E3, E2.
          destruct (IH (after o) tail) as (l' & EL & E5). rewrite EL. exists l'. split; [destruct k; reflexivity|].
          rewrite Z.mul_1_r, times_1, Z.mul_1_l in E4. intros ZL. destruct (E4 ZL) as [E6 E7]. destruct (E5 ZL) as [E8 E9]. split.
          + cbn [repeat concat Nat.eqb].
            replace (Z.of_nat (S k) * cnt (nb v) is) with (cnt (nb v) is + Z.of_nat k * cnt (nb v) is) by lia.
            replace (is_array (nb v) is) with (is_array (nb v) is || (if Nat.eqb k 0 then false else is_array (nb v) is)) by (destruct (Nat.eqb k 0), (is_array (nb v) is); reflexivity).
            eapply effect_trans; eassumption.
          + intros Nm F1 T0 K1. assert (k = 0)%nat by lia. subst k.
            cbn [run_loop] in EL. injection EL as <-.
            apply E7; auto. }
      destruct (G (Z.to_nat dup) (L0 f s) (list_toks is ++ tail)) as (l' & E & EF). exists l'.
      destruct (Z.to_nat dup) as [|k] eqn:EK; [lia|]. cbn [Nat.eqb] in E, EF. split; [exact E|]. intros ZL.
      pose proof (zlen_nonneg cs). destruct (EF ltac:(nia)) as [E1 E2]. rewrite <- EK, Z2Nat.id in E1 by lia. split; [exact E1|].
      intros Nm F1 D1. apply E2; [exact Nm|exact F1|reflexivity|lia]. }
  change ({| total := 0; first := f; st := s |}) with (L0 f s). rewrite E. cbn [abind]. eexists. split; [reflexivity|].
  intros ZL. destruct (EF ZL) as [[I1 E1] E2]. split.
  - split.
    + cbn [L0 st] in *. rewrite <- I1. destruct (named v); reflexivity.
    + intros Nm. destruct (E1 Nm) as (A1 & B1 & C1 & D1). rewrite Nm. unfold T, Sz in *. cbn [L0 total st first] in *.
      cbn [add_total lab l_length l_size l_array]. rewrite ?Z.mul_0_l, ?Z.add_0_r in A1, B1. rewrite !Z.mul_0_l, !Z.add_0_r.
      split; [apply cong_u32; exact A1|]. split; [apply cong_u32; exact B1|]. split; [exact C1|].
      intros F0. split; [exact F0|]. apply (D1 F0).
  - intros Nm F1 D1. rewrite Nm. apply (E2 Nm F1 D1).
Qed.

Lemma spec_all : forall n, specA n /\ specB n.
Proof.
  induction n as [|n [IA IB]].
  - split; intros v is tail; intros; exfalso; lia.
  - split; [apply specA_step; assumption|apply specB_step; assumption].
Qed.

(** the whole directive *)
Theorem data_dir_spec : forall v is, 0 < nb v -> literals v = false -> wfs is ->
  match list_cells (nb v) is with
  | None => data_dir v (list_toks is) = Bad_
  | Some cs =>
      exists s, data_dir v (list_toks is) = Good s /\
       (zlen cs < 2 ^ 32 ->
        image s = cs /\
        (named v = true ->
          l_length (lab s) = cnt (nb v) is mod 2 ^ 32 /\ l_size (lab s) = (cnt (nb v) is * nb v) mod 2 ^ 32 /\
          l_array (lab s) = is_array (nb v) is /\ dims s = dim32 (first_dim (nb v) is)))
  end.
Proof.
  intros v is Hn Hl W. unfold data_dir. destruct is as [|i r].
  - cbn. destruct (Z.to_nat 1); reflexivity.
  - set (is := i :: r) in *.
    pose proof (proj2 (spec_all (2 * length (list_toks is) + 2)) v is [] 1 true {| out := []; lab := no_label |} Hn Hl W ltac:(discriminate) eq_refl) as H.
    rewrite app_nil_r in H. specialize (H ltac:(lia) ltac:(lia)).
    destruct (list_cells (nb v) is) as [cs|]; [|rewrite H; reflexivity].
    destruct H as (s & E & H). rewrite E. cbn [abind]. exists s. split; [reflexivity|]. intros ZL.
    destruct (H ltac:(lia)) as [[I1 E1] D]. rewrite times_1, Z.mul_1_l in *. split; [exact I1|].
    intros Nm. destruct (E1 Nm) as (A1 & B1 & C1 & _). unfold T, Sz, cong in *. cbn [L0 st total lab no_label l_length l_size l_array orb] in *.
    rewrite ?Z.mul_0_l, ?Z.add_0_r, ?Z.add_0_l in A1, B1.
    assert (0 <= l_length (lab s) < 2 ^ 32 /\ 0 <= l_size (lab s) < 2 ^ 32) as [R1 R2].
    { remember (2 * length (list_toks is) + 2)%nat as n. destruct n as [|n]; [lia|]. cbn [data_item] in E.
      destruct (run_loop _ _ _ _) as [[l' r']| | |]; try discriminate E. cbn [abind] in E. rewrite Nm in E. injection E as <- _.
      cbn [add_total lab l_length l_size]. unfold u32, wrap. split; apply Z.mod_pos_bound; lia. }
    rewrite (Z.mod_small _ _ R1) in A1. rewrite (Z.mod_small _ _ R2) in B1.
    split; [exact A1|]. split; [exact B1|]. split; [exact C1|]. apply D; auto.
Qed.

(** * Counting: bytes = items * size *)
Lemma const_bytes_length : forall n e bs, 0 < n -> const_bytes n e = Some bs -> zlen bs = n.
Proof.
  intros n e bs Hn. unfold const_bytes. destruct (n <=? 8); [|destruct (n <=? 16)].
  - destruct (_ && _); [|discriminate]. intros [= <-]. unfold zlen. rewrite le_bytes_length. lia.
  - destruct (_ && _); [discriminate|]. intros [= <-]. unfold zlen. rewrite le_bytes_length. lia.
  - intros [= <-]. unfold zlen. rewrite le_bytes_length. lia.
Qed.
Lemma zlen_map : forall A B (f : A -> B) l, zlen (map f l) = zlen l.
Proof. intros. unfold zlen. rewrite map_length. reflexivity. Qed.
Lemma bytes_of_items : forall n i, 0 < n -> n <> 2 \/ single_chars i -> forall cs, cells n i = Some cs -> zlen cs = count n i * n.
Proof.
  intros n i Hn.
  apply (item_ind' (fun i => n <> 2 \/ single_chars i -> forall cs, cells n i = Some cs -> zlen cs = count n i * n)); clear i.
  - intros e _ cs H. cbn [cells count] in *. destruct (const_bytes n e) as [bs|] eqn:E; [|discriminate]. injection H as <-.
    rewrite zlen_map, (const_bytes_length n e bs Hn E). lia.
  - intros s HS cs H. cbn [cells count] in *. unfold string_bytes in H.
    destruct (zlen s =? 0) eqn:E0; [discriminate|]. destruct (n =? 1) eqn:E1; cbn [option_map orb] in *.
    + injection H as <-. rewrite zlen_map. lia.
    + destruct (n <? zlen s) eqn:E2; [discriminate|]. cbn [option_map] in H. injection H as <-. rewrite zlen_map, zlen_app.
      unfold zlen at 1 2. rewrite rev_length, repeat_length. fold (zlen s). destruct (n =? 2) eqn:E3; [|lia].
      destruct HS as [HS|HS]; cbn [single_chars] in *; [lia|]. rewrite HS. lia.
  - intros _ cs H. cbn in H. injection H as <-. unfold zlen. rewrite repeat_length. cbn [count]. lia.
  - intros c b F HS cs H. cbn [cells count] in *. destruct (2 ^ 31 <=? repeats c); [discriminate|].
    destruct (repeats c =? 0) eqn:EZ; [injection H as <-; change (zlen (@nil cell)) with 0; lia|].
    assert (0 <= repeats c) as R0 by (unfold repeats; apply Z.mod_pos_bound; lia).
    assert (n <> 2 \/ all_single b) as HS2 by (destruct HS as [?|HS]; [left; assumption|right; exact HS]).
    assert (forall l cs, Forall (fun i => n <> 2 \/ single_chars i -> forall cs, cells n i = Some cs -> zlen cs = count n i * n) l ->
      n <> 2 \/ all_single l -> all (map (cells n) l) = Some cs -> zlen cs = sum (map (count n) l) * n) as G.
    { clear. induction l as [|i l IH]; intros cs Fl HS H; cbn [map all] in H.
      - injection H as <-. reflexivity.
      - inversion Fl; subst. destruct (cells n i) as [c1|] eqn:E1; [|discriminate]. destruct (all (map (cells n) l)) as [c2|] eqn:E2; [|discriminate].
        injection H as <-. rewrite zlen_app. cbn [map sum fold_right].
        rewrite (H2 ltac:(destruct HS as [?|[? ?]]; auto) c1 eq_refl). rewrite (IH c2); [unfold sum; lia|assumption|destruct HS as [?|[? ?]]; auto|reflexivity]. }
    destruct b as [|x b]; [discriminate|]. destruct (all (map (cells n) (x :: b))) as [c2|] eqn:E2; [|discriminate].
    injection H as <-. rewrite times_zlen by exact R0. rewrite (G (x :: b) c2 F HS2 E2). lia.
Qed.
Lemma bytes_of_list : forall n l cs, 0 < n -> n <> 2 \/ all_single l -> list_cells n l = Some cs -> zlen cs = cnt n l * n.
Proof.
  intros n l cs Hn HS H. unfold list_cells in H. destruct l as [|i l]; [discriminate|].
  revert HS H. generalize (i :: l). clear i l. unfold cnt.
  intros l. revert cs. induction l as [|i l IH]; intros cs HS H; cbn [map all] in H.
  - injection H as <-. reflexivity.
  - destruct (cells n i) as [c1|] eqn:E1; [|discriminate]. destruct (all (map (cells n) l)) as [c2|] eqn:E2; [|discriminate].
    injection H as <-. rewrite zlen_app. cbn [map sum fold_right].
    rewrite (bytes_of_items n i Hn ltac:(destruct HS as [?|[? ?]]; auto) c1 E1). rewrite (IH c2); [unfold sum; lia|destruct HS as [?|[? ?]]; auto|reflexivity].
Qed.

(** * The scan ends *)
Lemma skip_length : forall ts k, (length (skip k ts) <= length ts)%nat.
Proof.
  induction ts as [|t r IH]; intros k; [reflexivity|]. destruct t; cbn [skip length]; try (specialize (IH k); lia).
  - specialize (IH (S k)). lia.
  - destruct k as [|[|k]]; cbn [length]; try lia. specialize (IH (S k)). lia.
Qed.
Lemma run_loop_ends : forall f b, (forall d l, f d l <> NoFuel) -> (forall d l o, f d l = Good o -> (length (rest o) <= b)%nat) ->
  forall k l r, (length r <= b)%nat -> run_loop f k l r <> NoFuel /\ (forall l' r', run_loop f k l r = Good (l', r') -> (length r' <= b)%nat).
Proof.
  intros f b N G. induction k as [|k IH]; intros l r Hr; cbn [run_loop].
  - split; [discriminate|]. intros l' r' [= _ <-]. exact Hr.
  - destruct (f (Z.of_nat (S k)) l) as [o| | |] eqn:E; cbn [abind]; try (split; [discriminate|intros; discriminate]).
    + destruct (stop o); [split; [discriminate|]; intros l' r' [= _ <-]; apply (G _ _ _ E)|]. apply IH. apply (G _ _ _ E).
    + exfalso. apply (N _ _ E).
Qed.
Definition ends_in (b : nat) (x : ans outcome) : Prop := x <> NoFuel /\ (forall o, x = Good o -> (length (rest o) <= b)%nat).
Lemma next_ends : forall v again l ts s b, (length ts <= b)%nat ->
  (forall l r, (length r <= b)%nat -> ends_in b (again l r)) -> ends_in b (next v again l ts s).
Proof.
  intros v again l ts s b Hb H. unfold next, item_done.
  assert (forall l, ends_in b (Good {| rest := ts; after := l; stop := s |})) as HG by (intros l0; split; [discriminate|intros o [= <-]; exact Hb]).
  destruct ts as [|[] r]; try apply HG. cbn [length] in Hb. destruct (ends r).
  - split; [discriminate|]. intros o [= <-]. cbn. lia.
  - apply H. lia.
Qed.
Lemma weaken : forall b c x, ends_in b x -> (b <= c)%nat -> ends_in c x.
Proof. intros b c x [A B] H. split; [exact A|]. intros o E. specialize (B o E). lia. Qed.
Lemma none_in : forall b x, x = Bad_ \/ x = Undef -> ends_in b x.
Proof. intros b x [-> | ->]; (split; [discriminate|intros o; discriminate]). Qed.
Lemma both_end : forall n,
  (forall v start dup l ts, (2 * length ts + 1 <= n)%nat -> ends_in (length ts) (items n v start dup l ts)) /\
  (forall v dup f s ts, (2 * length ts + 2 <= n)%nat -> data_item n v dup f s ts <> NoFuel /\
     (forall s' r, data_item n v dup f s ts = Good (s', r) -> (length r <= length ts)%nat)).
Proof.
  induction n as [|n [IHi IHd]]; [split; intros; lia|]. split.
  - intros v start dup l ts Hn.
    assert (forall b l r, (length r <= b)%nat -> (S b <= length ts)%nat -> ends_in b (items n v false dup l r)) as AG.
    { intros b l0 r Hb Hs. apply (weaken (length r)); [|exact Hb]. apply IHi. lia. }
    assert (forall l r s, (S (length r) <= length ts)%nat -> ends_in (length ts) (next v (items n v false dup) l r s)) as NX.
    { intros l0 r s Hr. apply (weaken (length r)); [|lia]. apply next_ends; [lia|]. intros. apply AG; lia. }
    cbn [items]. destruct ts as [|t r]; [apply none_in; auto|].
    assert (forall e, ends_in (length (t :: r)) (abind (of_res (store_const (nb v) e)) (fun bs =>
          next v (items n v false dup) {| total := u32 (total l + 1); first := first l; st := emit (st l) (Bytes bs) |} r false))) as HC.
    { intros e. destruct (store_const (nb v) e); cbn [of_res abind]; [apply NX; cbn; lia|apply none_in; auto|apply none_in; auto]. }
    assert (forall s, ends_in (length (t :: r)) (abind (of_res (store_string v s)) (fun evs =>
          let '(k, array) := string_items v s in
          let s1 := if array then set_array (st l) else st l in
          let s2 := if array && first l then set_first s1 1 (nb v) else s1 in
          next v (items n v false dup) {| total := u32 (total l + k); first := first l && negb array; st := {| out := rev evs ++ out s2; lab := lab s2 |} |} r false))) as HS.
    { intros s. destruct (store_string v s); cbn [of_res abind]; [|apply none_in; auto|apply none_in; auto]. destruct (string_items v s). cbv zeta. apply NX. cbn. lia. }
    destruct t; try (apply none_in; auto; fail).
    + destruct r as [|t2 r2]; [apply HC|]. destruct t2; try apply HC. clear HC HS.
      destruct (swrap 32 (ll e) <? 0); [apply none_in; auto|]. destruct r2 as [|t3 r3]; [apply none_in; auto|].
      destruct t3; try (apply none_in; auto; fail).
      assert (exists x, (if swrap 32 (ll e) =? 0 then Good (set_array (st l), skip 1 r3) else data_item n v (swrap 32 (ll e)) (first l) (set_array (st l)) r3) = x /\
        x <> NoFuel /\ (forall s' r, x = Good (s', r) -> (length r <= length r3)%nat)) as (x & -> & X1 & X2).
      { destruct (swrap 32 (ll e) =? 0); eexists; (split; [reflexivity|]).
        - split; [discriminate|]. intros s' r [= _ <-]. apply skip_length.
        - cbn [length] in Hn. apply IHd. lia. }
      destruct x as [[s' r']| | |]; cbn [abind]; try (apply none_in; auto; fail); [|congruence].
      specialize (X2 s' r' eq_refl). destruct r' as [|t4 r4]; [apply none_in; auto|]. destruct t4; try (apply none_in; auto; fail).
      apply NX. cbn [length] in *. lia.
    + destruct r as [|t2 r2]; [apply HS|]. destruct t2; try apply HS. apply none_in; auto.
    + clear HC HS. destruct (_ && _); apply NX; cbn; lia.
  - intros v dup f s ts Hn. cbn [data_item].
    destruct (run_loop_ends (fun d l => items n v true d l ts) (length ts)) with (k := Z.to_nat dup) (l := {| total := 0; first := f; st := s |}) (r := ts) as [R1 R2].
    + intros d l. apply IHi. lia.
    + intros d l o E. destruct (IHi v true d l ts ltac:(lia)) as [_ H]. apply (H o E).
    + lia.
    + destruct (run_loop _ _ _ _) as [[l r]| | |]; cbn [abind]; try (split; [discriminate|intros; discriminate]).
      * split; [discriminate|]. intros s' r' [= _ <-]. apply (R2 l r eq_refl).
      * congruence.
Qed.
Theorem data_dir_ends : forall v ts, data_dir v ts <> NoFuel.
Proof.
  intros v ts. unfold data_dir. destruct (proj2 (both_end (2 * length ts + 2)) v 1 true {| out := []; lab := no_label |} ts (le_n _)) as [A _].
  destruct (data_item _ _ _ _ _ _) as [[s r]| | |]; cbn [abind]; try discriminate; [destruct r; discriminate|congruence].
Qed.
