From Verif Require Import Base Queue_Model Queue_Spec.

Lemma lookup_update h a n b : lookup (update h a n) b = if a =? b then Some n else lookup h b.
Proof. reflexivity. Qed.
Lemma lookup_free h a b : lookup (free h a) b = if a =? b then None else lookup h b.
Proof.
  induction h as [|[c n] h]; cbn.
  - destruct (a =? b); auto.
  - destruct (c =? a) eqn:E; cbn; rewrite ?IHh; destruct (a =? b) eqn:F, (c =? b) eqn:G; auto; lia.
Qed.
Lemma get_ok h a n : a <> 0 -> lookup h a = Some n -> get h a = Ok n.
Proof. intros. unfold get. rewrite H0. destruct (a =? 0) eqn:E; auto; lia. Qed.
Lemma set_nx_ok h a v n : a <> 0 -> lookup h a = Some n -> set_nx h a v = Ok (update h a (mk_node v (pv n) (el n))).
Proof. intros. unfold set_nx. erewrite get_ok; eauto. reflexivity. Qed.
Lemma set_pv_ok h a v n : a <> 0 -> lookup h a = Some n -> set_pv h a v = Ok (update h a (mk_node (nx n) v (el n))).
Proof. intros. unfold set_pv. erewrite get_ok; eauto. reflexivity. Qed.

Fixpoint chain (h : heap) (p : Z) (l : list Z) : Prop :=
  match l with
  | [] => p = 0
  | a :: r => p = a /\ a <> 0 /\ exists n, lookup h a = Some n /\ chain h (nx n) r
  end.
Definition elt (h : heap) (a : Z) : Z := match lookup h a with Some n => el n | None => 0 end.
Definition els (h : heap) (l : list Z) : list Z := map (elt h) l.

Lemma walk_chain h l : forall p fuel, chain h p l -> (length l <= fuel)%nat -> walk fuel h p = Ok (els h l).
Proof.
  induction l; intros p fuel C L; cbn in *.
  - subst. destruct fuel; reflexivity.
  - destruct C as (-> & NZ & n & LK & C). destruct fuel; [lia|]. cbn.
    destruct (a =? 0) eqn:E; [lia|]. rewrite (get_ok h a n) by auto. cbn [bindr]. rewrite IHl by (auto; lia). cbn [bindr].
    unfold elt. rewrite LK. auto.
Qed.
Lemma chain_ext h h' l : forall p, (forall a, In a l -> lookup h' a = lookup h a) -> chain h p l -> chain h' p l.
Proof.
  induction l; intros p E C; cbn in *; auto.
  destruct C as (-> & NZ & n & LK & C). repeat split; auto. exists n. rewrite E by auto. split; auto.
Qed.
Lemma els_ext h h' l : (forall a, In a l -> elt h' a = elt h a) -> els h' l = els h l.
Proof. intros. apply map_ext_in. auto. Qed.
Lemma chain_dom h l : forall p a, chain h p l -> In a l -> a <> 0 /\ exists n, lookup h a = Some n.
Proof.
  induction l; intros p b C I; cbn in *; [tauto|]. destruct C as (-> & NZ & n & LK & C).
  destruct I as [<-|I]; eauto.
Qed.

Definition q_ok (h : heap) (q : qdesc) (l : list Z) : Prop :=
  chain h (head q) l /\ NoDup l /\ (l <> [] -> tail q = last l 0).

(** appending one node *)
Lemma snoc_chain h h' l a : forall p, chain h p l -> NoDup l -> ~ In a l -> a <> 0 ->
  (exists n', lookup h' a = Some n' /\ nx n' = 0) ->
  (forall b, In b l -> b <> last l 0 -> lookup h' b = lookup h b) ->
  (l <> [] -> exists n', lookup h' (last l 0) = Some n' /\ nx n' = a) ->
  chain h' (match l with [] => a | _ => p end) (l ++ [a]).
Proof.
  induction l as [|x l]; intros p C ND NI NZ (n' & LA & NX) SAME LAST; cbn [app].
  - cbn. repeat split; auto. exists n'. auto.
  - cbn in C. destruct C as (-> & XZ & n & LK & C). inversion ND; subst.
    destruct l as [|y l].
    + cbn in *. destruct LAST as (m & LM & NM); [congruence|]. repeat split; auto. exists m. split; auto.
      repeat split; auto. exists n'. auto.
    + cbn [app]. change (last (x :: y :: l) 0) with (last (y :: l) 0) in *.
      cbn [chain]. repeat split; auto. exists n. split.
      * rewrite SAME; auto; [cbn; auto|]. intros E. apply H1. rewrite E. 
        destruct (exists_last (l := y :: l)) as (l0 & z & EQ); [congruence|]. rewrite EQ. rewrite last_last. apply in_or_app. right. cbn; auto.
      * apply (IHl (nx n)); auto.
        -- intros I. apply NI. cbn in *; tauto.
        -- eauto.
        -- intros b I NB. apply SAME; auto. cbn in *; tauto.
        -- intros _. apply LAST. congruence.
Qed.

Lemma last_in (l : list Z) d : l <> [] -> In (last l d) l.
Proof.
  intros. destruct (exists_last H) as (l0 & z & ->). rewrite last_last. apply in_or_app. right. cbn; auto.
Qed.
Lemma nodup_snoc (l : list Z) a : NoDup l -> ~ In a l -> NoDup (l ++ [a]).
Proof.
  intros. apply NoDup_rev in H. rewrite <- (rev_involutive (l ++ [a])). apply NoDup_rev. rewrite rev_app_distr. cbn.
  constructor; auto. rewrite <- in_rev. auto.
Qed.

(** common post-condition of the append operations *)
Definition appended (h h' : heap) (q q' : qdesc) (l : list Z) (a : Z) : Prop :=
  q_ok h' q' (l ++ [a]) /\
  (forall b, b <> a -> ~ In b l -> lookup h' b = lookup h b) /\
  (forall b, elt h' b = elt h b) /\ lookup h' a <> None.

Lemma append_gen h h' q l a : q_ok h q l -> ~ In a l -> a <> 0 ->
  (exists n', lookup h' a = Some n' /\ nx n' = 0 /\ el n' = elt h a) ->
  (forall b, b <> a -> (l = [] \/ b <> last l 0) -> lookup h' b = lookup h b) ->
  (l <> [] -> exists n', lookup h' (last l 0) = Some n' /\ nx n' = a /\ el n' = elt h (last l 0)) ->
  appended h h' q (mk_q (if head q =? 0 then a else head q) a) l a.
Proof.
  intros (C & ND & T) NI NZ (n' & LA & NX & EL) SAME LAST.
  assert (HD : (if head q =? 0 then a else head q) = match l with [] => a | _ => head q end).
  { destruct l; cbn in C. rewrite C. reflexivity. destruct C as (-> & Z0 & _). destruct (z =? 0) eqn:E; auto; lia. }
  repeat split.
  - cbn [head]. rewrite HD. eapply snoc_chain; eauto.
    + intros b I NB. apply SAME; auto. congruence.
    + intros NE. destruct (LAST NE) as (m & ? & ? & ?). eauto.
  - apply nodup_snoc; auto.
  - intros _. cbn. rewrite last_last. auto.
  - intros b B1 B2. apply SAME; auto. destruct l; [auto|right]. intros ->. apply B2, last_in. congruence.
  - intros b. destruct (Z.eq_dec b a) as [-> |NB]. { unfold elt at 1. rewrite LA. auto. }
    destruct l as [|x l].
    + unfold elt. rewrite SAME; auto.
    + destruct (Z.eq_dec b (last (x :: l) 0)) as [-> |NL].
      * destruct LAST as (m & LM & _ & E); [congruence|]. unfold elt at 1. rewrite LM. auto.
      * unfold elt. rewrite SAME; auto.
  - congruence.
Qed.

Lemma head_zero h q l : q_ok h q l -> (head q =? 0) = match l with [] => true | _ => false end.
Proof. intros (C & _). destruct l; cbn in C. rewrite C; auto. destruct C as (-> & NZ & _). lia. Qed.

Lemma QEnqueue_ok h q l a n : q_ok h q l -> ~ In a l -> a <> 0 -> lookup h a = Some n ->
  exists h' q', QEnqueue h q a = Ok (h', q') /\ appended h h' q q' l a.
Proof.
  intros Q NI NZ LA. pose proof Q as (C & ND & T). unfold QEnqueue. pose proof (head_zero _ _ _ Q) as HZ. rewrite HZ.
  destruct l as [|x l].
  - cbn [bindr]. rewrite (set_nx_ok h a 0 n) by auto. cbn [bindr]. eexists _, _. split; [reflexivity|].
    replace (mk_q a a) with (mk_q (if head q =? 0 then a else head q) a) by (rewrite HZ; auto).
    apply append_gen; auto.
    + exists (mk_node 0 (pv n) (el n)). rewrite lookup_update, Z.eqb_refl. unfold elt. rewrite LA. auto.
    + intros. rewrite lookup_update. destruct (a =? b) eqn:E; auto; lia.
    + congruence.
  - assert (IL : In (last (x :: l) 0) (x :: l)) by (apply last_in; congruence).
    destruct (chain_dom _ _ _ _ C IL) as (TZ & m & LM). rewrite T by congruence.
    rewrite (set_nx_ok h _ a m) by auto. cbn [bindr].
    assert (NE : last (x :: l) 0 <> a) by congruence.
    rewrite (set_nx_ok _ a 0 n); auto. 2:{ rewrite lookup_update. destruct (_ =? a) eqn:E; auto; lia. }
    cbn [bindr]. eexists _, _. split; [reflexivity|].
    replace (mk_q (head q) a) with (mk_q (if head q =? 0 then a else head q) a) by (rewrite HZ; auto).
    apply append_gen; auto.
    + exists (mk_node 0 (pv n) (el n)). rewrite lookup_update, Z.eqb_refl. unfold elt. rewrite LA. auto.
    + intros b B1 [B2|B2]; [congruence|]. rewrite !lookup_update. destruct (a =? b) eqn:E; [lia|]. destruct (last (x :: l) 0 =? b) eqn:F; [lia|reflexivity].
    + intros _. exists (mk_node a (pv m) (el m)). rewrite lookup_update. destruct (a =? _) eqn:E; [lia|].
      rewrite lookup_update, Z.eqb_refl. unfold elt. rewrite LM. auto.
Qed.

Lemma AddLinnum_ok h q l a n : q_ok h q l -> ~ In a l -> a <> 0 -> lookup h a = Some n ->
  exists h' q', AddLinnumData h q a = Ok (h', q') /\ appended h h' q q' l a.
Proof.
  intros Q NI NZ LA. pose proof Q as (C & ND & T). unfold AddLinnumData. pose proof (head_zero _ _ _ Q) as HZ.
  rewrite (set_nx_ok h a 0 n) by auto. cbn [bindr]. rewrite HZ.
  destruct l as [|x l].
  - eexists _, _. split; [reflexivity|].
    replace (mk_q a a) with (mk_q (if head q =? 0 then a else head q) a) by (rewrite HZ; auto).
    apply append_gen; auto.
    + exists (mk_node 0 (pv n) (el n)). rewrite lookup_update, Z.eqb_refl. unfold elt. rewrite LA. auto.
    + intros. rewrite lookup_update. destruct (a =? b) eqn:E; auto; lia.
    + congruence.
  - assert (IL : In (last (x :: l) 0) (x :: l)) by (apply last_in; congruence).
    destruct (chain_dom _ _ _ _ C IL) as (TZ & m & LM). rewrite T by congruence.
    assert (NE : last (x :: l) 0 <> a) by congruence.
    rewrite (set_nx_ok _ _ a m); auto. 2:{ rewrite lookup_update. destruct (a =? _) eqn:E; auto; lia. }
    cbn [bindr]. eexists _, _. split; [reflexivity|].
    replace (mk_q (head q) a) with (mk_q (if head q =? 0 then a else head q) a) by (rewrite HZ; auto).
    apply append_gen; auto.
    + exists (mk_node 0 (pv n) (el n)). rewrite lookup_update. destruct (_ =? a) eqn:E; [lia|]. rewrite lookup_update, Z.eqb_refl. unfold elt. rewrite LA. auto.
    + intros b B1 [B2|B2]; [congruence|]. rewrite !lookup_update. destruct (last (x :: l) 0 =? b) eqn:E; [lia|]. destruct (a =? b) eqn:F; [lia|reflexivity].
    + intros _. exists (mk_node a (pv m) (el m)). rewrite lookup_update, Z.eqb_refl. unfold elt. rewrite LM. auto.
Qed.

Definition alloc_ok (alloc : heap -> Z) : Prop := forall h, alloc h <> 0 /\ lookup h (alloc h) = None.

Lemma q_ok_ext h h' q l : (forall a, In a l -> lookup h' a = lookup h a) -> q_ok h q l -> q_ok h' q l.
Proof. intros E (C & N & T). repeat split; auto. eapply chain_ext; eauto. Qed.
Lemma fresh_notin h q l a : q_ok h q l -> lookup h a = None -> ~ In a l.
Proof. intros (C & _) N I. destruct (chain_dom _ _ _ _ C I) as (_ & n & L). congruence. Qed.

Lemma QAddItem_ok alloc junk h q l d : alloc_ok alloc -> q_ok h q l ->
  exists h' q' a, QAddItem alloc junk h q d = Ok (h', q') /\ q_ok h' q' (l ++ [a]) /\ lookup h a = None /\ a <> 0 /\
   (forall b, lookup h b <> None -> ~ In b l -> lookup h' b = lookup h b) /\
   (forall b, lookup h b <> None -> elt h' b = elt h b) /\ elt h' a = d /\ lookup h' a <> None.
Proof.
  intros AO Q. destruct (AO h) as (NZ & FR). unfold QAddItem. set (a := alloc h) in *. clearbody a.
  pose proof (fresh_notin _ _ _ _ Q FR) as NI.
  destruct (QEnqueue_ok (update h a (mk_node junk junk d)) q l a (mk_node junk junk d)) as (h' & q' & E & P1 & P2 & P3 & P4); auto.
  - eapply q_ok_ext; [|exact Q]. intros b I. rewrite lookup_update. destruct (a =? b) eqn:F; auto. assert (a = b) by lia. subst; contradiction.
  - rewrite lookup_update, Z.eqb_refl; auto.
  - exists h', q', a. split; auto. split; auto. split; auto. split; auto. repeat split; auto.
    + intros b B I. assert (b <> a) by congruence. rewrite P2 by auto. rewrite lookup_update. destruct (a =? b) eqn:F; auto; lia.
    + intros b B. rewrite P3. unfold elt. rewrite lookup_update. destruct (a =? b) eqn:F; auto. assert (a = b) by lia. congruence.
    + rewrite P3. unfold elt. rewrite lookup_update, Z.eqb_refl. auto.
Qed.

(** histories over several queues *)
Fixpoint add_all (alloc : heap -> Z) (junk : Z) (h : heap) (qs : Z -> qdesc) (ops : list (Z * Z)) : res (heap * (Z -> qdesc)) :=
  match ops with
  | [] => Ok (h, qs)
  | (i, d) :: r => bindr (QAddItem alloc junk h (qs i) d) (fun '(h, q) =>
      add_all alloc junk h (fun j => if j =? i then q else qs j) r)
  end.

Definition qs_ok (h : heap) (qs : Z -> qdesc) (ls : Z -> list Z) : Prop :=
  (forall i, q_ok h (qs i) (ls i)) /\ (forall i j a, In a (ls i) -> In a (ls j) -> i = j).

Lemma add_all_ok alloc junk ops : forall h qs ls, alloc_ok alloc -> qs_ok h qs ls ->
  exists h' qs' ls', add_all alloc junk h qs ops = Ok (h', qs') /\ qs_ok h' qs' ls' /\
   (forall i, els h' (ls' i) = els h (ls i) ++ queued i ops).
Proof.
  induction ops as [|[i d] ops]; intros h qs ls AO (Q & D).
  - exists h, qs, ls. repeat split; auto. all: try apply Q. intros. cbn. rewrite app_nil_r. auto.
  - cbn [add_all]. destruct (QAddItem_ok alloc junk h (qs i) (ls i) d AO (Q i)) as (h1 & q1 & a & E & O1 & FR & NZ & S1 & S2 & EL & _).
    rewrite E. cbn [bindr].
    assert (DOM : forall j b, In b (ls j) -> lookup h b <> None).
    { intros j b I. destruct (Q j) as (C & _). destruct (chain_dom _ _ _ _ C I) as (_ & n & L). congruence. }
    destruct (IHops h1 (fun j => if j =? i then q1 else qs j) (fun j => if j =? i then ls i ++ [a] else ls j) AO) as (h' & qs' & ls' & E' & OK' & EL').
    + split.
      * intros j. destruct (j =? i) eqn:J; auto. eapply q_ok_ext; [|apply Q]. intros b I. apply S1; eauto.
        intros I'. assert (j = i) by eauto. lia.
      * intros j k b I1 I2. 
        assert (FRN : forall m, ~ In a (ls m)) by (intros m I; apply DOM in I; congruence).
        destruct (j =? i) eqn:J, (k =? i) eqn:K; try lia.
        -- apply in_app_iff in I1. cbn in I1. destruct I1 as [I1|[<-|[]]]; [|exfalso; eapply FRN; eauto].
           assert (i = k) by eauto. lia.
        -- apply in_app_iff in I2. cbn in I2. destruct I2 as [I2|[<-|[]]]; [|exfalso; eapply FRN; eauto].
           assert (j = i) by eauto. lia.
        -- eauto.
    + exists h', qs', ls'. split; auto. split; auto. intros j. rewrite EL'.
      unfold queued. cbn [filter fst]. rewrite (Z.eqb_sym i j). destruct (j =? i) eqn:J.
      * assert (j = i) by lia. subst j. cbn [map snd]. unfold els. rewrite map_app. cbn [map]. rewrite EL.
        rewrite <- app_assoc. cbn [app]. f_equal. apply map_ext_in. intros b I. apply S2. eauto.
      * f_equal. apply els_ext. intros b I. apply S2; eauto.
Qed.

Lemma incl_len h l p : chain h p l -> NoDup l -> (length l <= length h)%nat.
Proof.
  intros C ND. rewrite <- (map_length fst h). apply NoDup_incl_length; auto.
  intros a I. destruct (chain_dom _ _ _ _ C I) as (_ & n & L). clear - L.
  induction h as [|[b m] h]; cbn in *; [discriminate|]. destruct (b =? a) eqn:E; [left; lia|right; auto].
Qed.

Lemma queues_deliver alloc junk ops : alloc_ok alloc ->
  exists h qs, add_all alloc junk [] (fun _ => mk_q 0 0) ops = Ok (h, qs) /\
    forall i, walk (length h) h (head (qs i)) = Ok (queued i ops).
Proof.
  intros AO. destruct (add_all_ok alloc junk ops [] (fun _ => mk_q 0 0) (fun _ => []) AO) as (h & qs & ls & E & (Q & _) & EL).
  - split; [|cbn; tauto]. intros i. split; [reflexivity|]. split; [constructor|]. congruence.
  - exists h, qs. split; auto. intros i. destruct (Q i) as (C & ND & _). rewrite (walk_chain h (ls i)); auto.
    + rewrite EL. auto.
    + eapply incl_len; eauto.
Qed.

(** *** publics filter *)
Definition is_weak (cls : Z -> pubclass) x := match cls x with P_WEAKEXT => true | _ => false end.
Definition is_bad (cls : Z -> pubclass) x := match cls x with P_OTHER => true | _ => false end.

Fixpoint drop_addr (cls : Z -> pubclass) (h : heap) (l : list Z) : list Z :=
  match l with
  | [] => []
  | a :: r => match cls (elt h a) with P_WEAKEXT => drop_addr cls h r | P_OTHER => a :: r | P_INTERNAL => a :: drop_addr cls h r end
  end.
Lemma drop_addr_els cls h l : els h (drop_addr cls h l) = drop_weak (is_bad cls) (is_weak cls) (els h l).
Proof.
  induction l as [|a l]; [reflexivity|]. cbn [drop_addr els map drop_weak]. fold (els h l). rewrite <- IHl.
  replace (is_weak cls (elt h a)) with (match cls (elt h a) with P_WEAKEXT => true | _ => false end) by reflexivity.
  replace (is_bad cls (elt h a)) with (match cls (elt h a) with P_OTHER => true | _ => false end) by reflexivity.
  destruct (cls (elt h a)); reflexivity.
Qed.
Lemma drop_addr_ext cls h h' l : (forall a, In a l -> elt h' a = elt h a) -> drop_addr cls h' l = drop_addr cls h l.
Proof.
  induction l; cbn; intros E; auto. rewrite E by auto. rewrite IHl by auto. auto.
Qed.
Lemma drop_addr_incl cls h l : incl (drop_addr cls h l) l.
Proof.
  induction l; cbn; [intros x []|]. destruct (cls _); intros x I; cbn in *; auto. destruct I; auto.
Qed.

Lemma pub_loop_ok cls l : forall fuel h q qn p pre,
  (length l <= fuel)%nat -> chain h p l -> NoDup (pre ++ l) ->
  chain h (head q) (pre ++ l) -> (qn = last pre 0) ->
  exists h' q', pub_loop fuel cls h q qn p = Ok (h', q') /\
    chain h' (head q') (pre ++ drop_addr cls h l) /\ (forall b, elt h' b = elt h b) /\ tail q' = tail q /\
    (forall b, ~ In b (pre ++ l) -> lookup h' b = lookup h b).
Proof.
  induction l as [|a l]; intros fuel h q qn p pre F C ND CH QN.
  - cbn in C. subst p. exists h, q. destruct fuel; cbn; repeat split; auto.
  - cbn in C. destruct C as (-> & NZ & n & LK & C). destruct fuel as [|fuel]; [cbn in F; lia|].
    cbn [pub_loop]. destruct (a =? 0) eqn:AZ; [lia|]. rewrite (get_ok h a n) by auto. cbn [bindr].
    assert (EA : elt h a = el n) by (unfold elt; rewrite LK; auto).
    cbn [drop_addr]. rewrite EA. destruct (cls (el n)).
    + (* internal *)
      destruct (IHl fuel h q a (nx n) (pre ++ [a])) as (h' & q' & E & C' & EL & TL & SM).
      * cbn in F; lia. * auto. * rewrite <- app_assoc. auto. * rewrite <- app_assoc. auto.
      * rewrite last_last. auto.
      * exists h', q'. split; auto. rewrite <- app_assoc in C'. repeat split; auto.
        intros b NB. apply SM. rewrite <- app_assoc. auto.
    + (* weak *)
      assert (ND' : NoDup (pre ++ l)) by (eapply NoDup_remove_1; eauto).
      destruct (qn =? 0) eqn:QZ.
      * assert (pre = []) as ->.
        { destruct pre; auto. exfalso. assert (I : In (last (z :: pre) 0) ((z :: pre) ++ a :: l)) by (apply in_or_app; left; apply last_in; congruence).
          destruct (chain_dom _ _ _ _ CH I). lia. }
        destruct (IHl fuel h (mk_q (nx n) (tail q)) 0 (nx n) []) as (h' & q' & E & C' & EL & TL & SM); auto; [cbn in F; lia|].
        exists h', q'. repeat split; auto. intros b NB. apply SM. cbn in *. tauto.
      * assert (PN : pre <> []) by (intros ->; cbn in QN; lia).
        assert (I : In qn pre) by (subst qn; apply last_in; auto).
        destruct (chain_dom _ _ _ qn CH) as (_ & m & LM); [apply in_or_app; auto|].
        rewrite (set_nx_ok h qn (nx n) m) by (auto; lia). cbn [bindr].
        set (h1 := update h qn (mk_node (nx n) (pv m) (el m))).
        rewrite (get_ok h1 qn (mk_node (nx n) (pv m) (el m))); [|lia|unfold h1; rewrite lookup_update, Z.eqb_refl; auto].
        cbn [bindr nx].
        assert (NQ : ~ In qn (a :: l)).
        { intros I2. apply in_split in I as (p1 & p2 & ->). rewrite <- app_assoc in ND. cbn in ND.
          apply NoDup_remove_2 in ND. apply ND. apply in_or_app. right. apply in_or_app. auto. }
        assert (EE : forall b, elt h1 b = elt h b).
        { intros b. unfold elt, h1. rewrite lookup_update. destruct (qn =? b) eqn:B; auto. assert (qn = b) by lia. subst b. rewrite LM. auto. }
        destruct (IHl fuel h1 q qn (nx n) pre) as (h' & q' & E & C' & EL & TL & SM); auto.
        -- cbn in F; lia.
        -- eapply chain_ext; [|exact C]. intros b IB. unfold h1. rewrite lookup_update. destruct (qn =? b) eqn:B; auto.
           exfalso. apply NQ. right. assert (qn = b) by lia. congruence.
        -- (* relinked chain *)
           assert (G : forall pr hd, chain h hd (pr ++ a :: l) -> NoDup (pr ++ a :: l) -> pr <> [] -> last pr 0 = qn -> chain h1 hd (pr ++ l)).
           { induction pr as [|x pr]; intros hd CC NN PP LL; [congruence|]. cbn [app] in *.
             cbn in CC. destruct CC as (-> & XZ & k & LX & CC). apply NoDup_cons_iff in NN as (H1 & H2).
             destruct pr as [|y pr].
             - cbn [last] in LL. subst x. cbn [app chain]. repeat split; auto. exists (mk_node (nx n) (pv m) (el m)). unfold h1. rewrite lookup_update, Z.eqb_refl. split; auto.
               cbn [nx]. eapply chain_ext; [|exact C]. intros b IB. rewrite lookup_update. destruct (qn =? b) eqn:B; auto.
               exfalso. apply NQ. right. assert (qn = b) by lia. congruence.
             - cbn [chain]. repeat split; auto. exists k. split.
               + unfold h1. rewrite lookup_update. destruct (qn =? x) eqn:B; auto. exfalso. assert (qn = x) by lia. subst x.
                 change (last (qn :: y :: pr) 0) with (last (y :: pr) 0) in LL.
                 apply H1. apply in_or_app. left. rewrite <- LL. apply last_in. congruence.
               + apply IHpr; auto; congruence. }
           apply G; auto.
        -- exists h', q'. rewrite (drop_addr_ext cls h h1) in C' by auto. repeat split; auto.
           ++ intros b. rewrite EL. auto.
           ++ intros b NB. rewrite SM. 2:{ intros IB. apply NB. apply in_app_iff in IB. apply in_or_app. cbn. tauto. }
              unfold h1. rewrite lookup_update. destruct (qn =? b) eqn:B; auto. exfalso. apply NB. apply in_or_app. left. assert (qn = b) by lia. congruence.
    + exists h, q. repeat split; auto.
Qed.

Lemma pubs_filtered alloc junk cls ops : alloc_ok alloc ->
  exists h qs h' q', add_all alloc junk [] (fun _ => mk_q 0 0) ops = Ok (h, qs) /\
    PassOneChecks_pub (length h) cls h (qs 0) = Ok (h', q') /\
    walk (length h) h' (head q') = Ok (drop_weak (is_bad cls) (is_weak cls) (queued 0 ops)).
Proof.
  intros AO. destruct (add_all_ok alloc junk ops [] (fun _ => mk_q 0 0) (fun _ => []) AO) as (h & qs & ls & E & (Q & _) & EL).
  - split; [|cbn; tauto]. intros i. split; [reflexivity|]. split; [constructor|]. congruence.
  - destruct (Q 0) as (C & ND & _). pose proof (incl_len _ _ _ C ND) as LE.
    destruct (pub_loop_ok cls (ls 0) (length h) h (qs 0) 0 (head (qs 0)) []) as (h' & q' & E' & C' & EE & _); auto.
    exists h, qs, h', q'. split; auto. split; auto. cbn [app] in C'. rewrite (walk_chain _ _ _ _ C').
    + rewrite (els_ext h h') by auto. rewrite drop_addr_els, EL. auto.
    + eapply Nat.le_trans; [|exact LE]. apply NoDup_incl_length.
      * clear - ND. induction (ls 0) as [|a l]; cbn; [constructor|]. inversion ND; subst.
        destruct (cls (elt h a)); auto. constructor; auto. intros I. apply drop_addr_incl in I. auto.
      * apply drop_addr_incl.
Qed.

(** *** doubly linked symbol tables *)
Definition d_ok (h : heap) (q : qdesc) (l : list Z) : Prop :=
  NoDup l /\ ~ In 0 l /\ head q = hd 0 l /\ (l <> [] -> tail q = last l 0) /\
  forall l1 a l2, l = l1 ++ a :: l2 -> exists n, lookup h a = Some n /\ pv n = last l1 0 /\ nx n = hd 0 l2.

Lemma d_ok_ext h h' q l : (forall a, In a l -> lookup h' a = lookup h a) -> d_ok h q l -> d_ok h' q l.
Proof.
  intros E (ND & NZ & HD & TL & P). split; [|split; [|split; [|split]]]; auto.
  intros l1 a l2 EQ. rewrite E; eauto. subst. apply in_or_app; cbn; auto.
Qed.
Lemma d_chain h q l : d_ok h q l -> chain h (head q) l.
Proof.
  intros (ND & NZ & HD & TL & P). rewrite HD. clear HD TL.
  assert (G : forall l2 l1, l = l1 ++ l2 -> chain h (hd 0 l2) l2).
  { induction l2 as [|a l2]; intros l1 E; [reflexivity|]. destruct (P _ _ _ E) as (n & LK & PV & NX).
    cbn. repeat split; auto. { intros ->. apply NZ. subst. apply in_or_app; cbn; auto. }
    exists n. split; auto. rewrite NX. apply (IHl2 (l1 ++ [a])). rewrite <- app_assoc. auto. }
  apply (G l []). auto.
Qed.
Lemma d_dom h q l a : d_ok h q l -> In a l -> a <> 0 /\ exists n, lookup h a = Some n.
Proof. intros D I. apply d_chain in D. eapply chain_dom; eauto. Qed.

Lemma last_app_ne (l r : list Z) d : r <> [] -> last (l ++ r) d = last r d.
Proof.
  intros NE. destruct (exists_last NE) as (r0 & z & ->). rewrite app_assoc, !last_last. auto.
Qed.
Lemma hd_in (l : list Z) d : l <> [] -> In (hd d l) l.
Proof. destruct l; [congruence|cbn; auto]. Qed.

(** only the payload and the domain *)
Definition same_els (h h' : heap) : Prop :=
  (forall b, elt h' b = elt h b) /\ (forall b, lookup h' b = None <-> lookup h b = None).
Lemma same_els_refl h : same_els h h.
Proof. split; tauto. Qed.
Lemma same_els_trans a b c : same_els a b -> same_els b c -> same_els a c.
Proof. intros (A & B) (C & D). split; intros; [rewrite C; auto|rewrite D; auto]. Qed.
Lemma same_els_upd h a n n' : lookup h a = Some n -> el n' = el n -> same_els h (update h a n').
Proof.
  intros L E. split; intros b; unfold elt; rewrite lookup_update; destruct (a =? b) eqn:Q; try tauto; assert (a = b) by lia; subst b; rewrite L; auto.
  split; congruence.
Qed.

Lemma sym_add_ok h q l a n : d_ok h q l -> ~ In a l -> a <> 0 -> lookup h a = Some n ->
  exists h' q', sym_add_table h q a = Ok (h', q') /\ d_ok h' q' (l ++ [a]) /\ same_els h h' /\
   (forall b, b <> a -> ~ In b l -> lookup h' b = lookup h b).
Proof.
  intros D NI AZ LA. pose proof D as (ND & NZ & HD & TL & P). unfold sym_add_table.
  assert (HZ : (head q =? 0) = match l with [] => true | _ => false end).
  { rewrite HD. destruct l; auto. cbn. destruct (z =? 0) eqn:E; auto. exfalso; apply NZ. cbn. lia. }
  rewrite HZ. destruct l as [|x l].
  - rewrite (set_nx_ok h a 0 n) by auto. cbn [bindr].
    rewrite (set_pv_ok _ a 0 (mk_node 0 (pv n) (el n))) by (auto; rewrite lookup_update, Z.eqb_refl; auto). cbn [bindr].
    eexists _, _. split; [reflexivity|]. split; [|split].
    + cbn [app]. split; [constructor; auto|]. split; [cbn; lia|]. split; [auto|]. split; [auto|].
      intros l1 c l2 E. destruct l1 as [|y l1]; [|destruct l1; discriminate]. cbn in E. inversion E; subst.
      eexists. rewrite lookup_update, Z.eqb_refl. split; auto.
    + eapply same_els_trans; [apply (same_els_upd h a n (mk_node 0 (pv n) (el n))); auto|]. eapply same_els_upd; [rewrite lookup_update, Z.eqb_refl; reflexivity|auto].
    + intros b NB _. rewrite !lookup_update. destruct (a =? b) eqn:E; [lia|auto].
  - assert (IL : In (last (x :: l) 0) (x :: l)) by (apply last_in; congruence).
    destruct (d_dom _ _ _ _ D IL) as (TZ & m & LM). rewrite TL by congruence. set (t := last (x :: l) 0) in *.
    assert (TA : t <> a) by congruence.
    rewrite (set_pv_ok h a t n) by auto. cbn [bindr].
    rewrite (set_nx_ok _ t a m); auto. 2:{ rewrite lookup_update. destruct (a =? t) eqn:E; [lia|auto]. } cbn [bindr].
    rewrite (set_nx_ok _ a 0 (mk_node (nx n) t (el n))); auto.
    2:{ rewrite lookup_update. destruct (t =? a) eqn:E; [lia|]. rewrite lookup_update, Z.eqb_refl; auto. } cbn [bindr pv el].
    eexists _, _. split; [reflexivity|].
    match goal with |- d_ok ?hh _ _ /\ _ => set (h' := hh) end.
    assert (L' : forall b, lookup h' b = if a =? b then Some (mk_node 0 t (el n)) else if t =? b then Some (mk_node a (pv m) (el m)) else lookup h b).
    { intros b. unfold h'. rewrite !lookup_update. destruct (a =? b), (t =? b); auto. }
    split; [|split].
    + split; [apply nodup_snoc; auto|]. split; [rewrite in_app_iff; cbn in *; tauto|]. split; [auto|]. split; [intros; rewrite last_last; auto|].
      intros l1 c l2 E. rewrite L'. destruct l2 as [|y l2].
      * apply app_inj_tail in E as (<- & ->). exists (mk_node 0 t (el n)). rewrite Z.eqb_refl. auto.
      * destruct (exists_last (l := y :: l2)) as (l2' & z & EQ); [congruence|]. rewrite EQ in E. 
        rewrite app_comm_cons, app_assoc in E. apply app_inj_tail in E as (E & <-).
        destruct (P _ _ _ E) as (k & LK & PV & NX).
        assert (CA : c <> a) by (intros ->; apply NI; rewrite E; apply in_or_app; cbn; auto).
        destruct (a =? c) eqn:Q; [lia|]. destruct (t =? c) eqn:Q2.
        -- assert (t = c) by lia. subst c. rewrite LM in LK. inversion LK; subst k. exists (mk_node a (pv m) (el m)). split; auto. split; auto.
           cbn. destruct l2' as [|w l2']; [cbn in EQ; inversion EQ; auto|]. exfalso.
           assert (t = last (w :: l2') 0). { unfold t. rewrite E. change (l1 ++ t :: w :: l2') with (l1 ++ [t] ++ w :: l2'). rewrite app_assoc. apply last_app_ne. congruence. }
           rewrite E in ND. apply NoDup_remove_2 in ND. apply ND. apply in_or_app. right. rewrite H. apply last_in. congruence.
        -- exists k. split; auto. split; auto. rewrite NX. destruct l2' as [|w l2']; [|rewrite EQ; auto].
           exfalso. assert (t = c) by (unfold t; rewrite E; apply last_last). lia.
    + split; intros b; unfold elt; rewrite L'; destruct (a =? b) eqn:E1, (t =? b) eqn:E2; try tauto; auto;
       try (assert (a = b) by lia; subst b; rewrite LA; try split; try congruence; auto; fail);
       try (assert (t = b) by lia; subst b; rewrite LM; try split; try congruence; auto).
    + intros b NB NI2. rewrite L'. destruct (a =? b) eqn:E; [lia|]. destruct (t =? b) eqn:E2; auto. exfalso; apply NI2. assert (t = b) by lia. congruence.
Qed.

Lemma filter_split (l1 l2 : list Z) a : NoDup (l1 ++ a :: l2) -> filter (fun x => negb (x =? a)) (l1 ++ a :: l2) = l1 ++ l2.
Proof.
  intros ND. apply NoDup_remove_2 in ND. rewrite filter_app. cbn. rewrite Z.eqb_refl. cbn.
  assert (G : forall l, ~ In a l -> filter (fun x => negb (x =? a)) l = l).
  { induction l; cbn; auto; intros NI. destruct (a0 =? a) eqn:E; [exfalso; apply NI; lia|]. cbn. rewrite IHl; auto. }
  rewrite !G; auto; intros I; apply ND; apply in_or_app; auto.
Qed.

Lemma sym_remove_ok h q l a : d_ok h q l -> In a l ->
  exists h' q', sym_remove_table h q a = Ok (h', q') /\ d_ok h' q' (filter (fun x => negb (x =? a)) l) /\ same_els h h' /\
   (forall b, ~ In b l -> lookup h' b = lookup h b).
Proof.
  intros D I. pose proof D as (ND & NZ & HD & TL & P). apply in_split in I as (l1 & l2 & ->).
  rewrite filter_split by auto. destruct (P _ _ _ eq_refl) as (n & LA & PV & NX).
  assert (AZ : a <> 0) by (intros ->; apply NZ; apply in_or_app; cbn; auto).
  set (p := last l1 0) in *. set (s := hd 0 l2) in *.
  assert (PZ : p = 0 <-> l1 = []).
  { split; [|intros ->; reflexivity]. intros E. destruct l1; auto. exfalso. apply NZ. rewrite <- E. apply in_or_app. left. apply last_in. congruence. }
  assert (SZ : s = 0 <-> l2 = []).
  { split; [|intros ->; reflexivity]. intros E. destruct l2; auto. exfalso. apply NZ. rewrite <- E. apply in_or_app. right. cbn. auto. }
  assert (PA : p <> a). { intros E. apply NoDup_remove_2 in ND. destruct l1 as [|y l1]; [cbn in p; unfold p in E; lia|]. apply ND. apply in_or_app. left. rewrite <- E. apply last_in. congruence. }
  assert (SA : s <> a). { intros E. apply NoDup_remove_2 in ND. destruct l2 as [|y l2]; [cbn in s; unfold s in E; lia|]. apply ND. apply in_or_app. right. rewrite <- E. cbn; auto. }
  assert (PS : l1 <> [] -> p <> s).
  { intros NE E. destruct l2 as [|y l2]; [cbn in s; unfold s in E; apply NE, PZ; auto|].
    pose proof (NoDup_remove_1 _ _ _ ND) as ND1. cbn in s. unfold s in E.
    apply NoDup_remove_2 in ND1. apply ND1. apply in_or_app. left. rewrite <- E. apply last_in. auto. }
  assert (LP : l1 <> [] -> exists m, lookup h p = Some m).
  { intros NE. destruct (d_dom _ _ _ p D) as (_ & ?); auto. apply in_or_app. left. apply last_in; auto. }
  assert (LS : l2 <> [] -> exists m, lookup h s = Some m).
  { intros NE. destruct (d_dom _ _ _ s D) as (_ & ?); auto. apply in_or_app. right. right. apply hd_in; auto. }
  unfold sym_remove_table. rewrite (get_ok h a n) by auto. cbn [bindr]. rewrite PV, NX.
  set (upd1 := fun hh : heap => match lookup h p with Some m => if p =? 0 then hh else update hh p (mk_node s (pv m) (el m)) | None => hh end).
  assert (E1 : (if p =? 0 then Ok h else set_nx h p s) = Ok (upd1 h)).
  { unfold upd1. destruct (p =? 0) eqn:Q. { destruct (lookup h p); auto. }
    destruct LP as (m & LM); [intros E; apply PZ in E; lia|]. rewrite LM. apply set_nx_ok; auto; lia. }
  rewrite E1. cbn [bindr].
  assert (U1 : forall b, lookup (upd1 h) b = if (p =? b) && negb (p =? 0) then match lookup h p with Some m => Some (mk_node s (pv m) (el m)) | None => None end else lookup h b).
  { intros b. unfold upd1. destruct (p =? 0) eqn:Q. { rewrite andb_false_r. destruct (lookup h p); auto. }
    cbn [negb]. rewrite andb_true_r. destruct LP as (m & LM); [intros E; apply PZ in E; lia|]. rewrite LM. rewrite lookup_update. auto. }
  assert (LA1 : lookup (upd1 h) a = Some n). { rewrite U1. destruct (p =? a) eqn:Q; [lia|]. auto. }
  rewrite (get_ok _ a n) by auto. cbn [bindr]. rewrite PV, NX.
  set (h1 := upd1 h) in *.
  set (upd2 := fun hh : heap => match lookup hh s with Some m => if s =? 0 then hh else update hh s (mk_node (nx m) p (el m)) | None => hh end).
  assert (LS1 : lookup h1 s = lookup h s \/ s = 0).
  { rewrite U1. destruct ((p =? s) && negb (p =? 0)) eqn:Q; auto. exfalso. apply PS; [|lia]. intros E. apply PZ in E. lia. }
  assert (E2 : (if s =? 0 then Ok h1 else set_pv h1 s p) = Ok (upd2 h1)).
  { unfold upd2. destruct (s =? 0) eqn:Q. { destruct (lookup h1 s); auto. }
    destruct LS as (m & LM); [intros E; apply SZ in E; lia|]. destruct LS1 as [LS1|]; [|lia]. rewrite LS1, LM. apply set_pv_ok; auto; try lia. congruence. }
  rewrite E2. cbn [bindr].
  assert (U2 : forall b, lookup (upd2 h1) b = if (s =? b) && negb (s =? 0) then match lookup h s with Some m => Some (mk_node (nx m) p (el m)) | None => None end else lookup h1 b).
  { intros b. unfold upd2. destruct (s =? 0) eqn:Q. { rewrite andb_false_r. destruct (lookup h1 s); auto. }
    cbn [negb]. rewrite andb_true_r. destruct LS as (m & LM); [intros E; apply SZ in E; lia|]. destruct LS1 as [LS1|]; [|lia]. rewrite LS1, LM. rewrite lookup_update. auto. }
  set (h2 := upd2 h1) in *.
  assert (LA2 : lookup h2 a = Some n). { rewrite U2. destruct (s =? a) eqn:Q; [lia|]. auto. }
  rewrite (get_ok _ a n) by auto. cbn [bindr]. rewrite PV, NX.
  rewrite (set_nx_ok h2 a 0 n) by auto. cbn [bindr].
  rewrite (set_pv_ok _ a 0 (mk_node 0 (pv n) (el n))) by (auto; rewrite lookup_update, Z.eqb_refl; auto). cbn [bindr].
  eexists _, _. split; [reflexivity|].
  match goal with |- d_ok ?hh _ _ /\ _ => set (h' := hh) end.
  assert (L' : forall b, lookup h' b = if a =? b then Some (mk_node 0 0 (el n)) else lookup h2 b).
  { intros b. unfold h'. rewrite !lookup_update. destruct (a =? b); auto. }
  clearbody h'. clear E1 E2. clearbody h2. clear upd2. clearbody h1. clear upd1.
  assert (IN1 : forall b, In b l1 -> b <> a /\ (s = b -> s = 0)).
  { intros b IB. split; [intros ->; apply NoDup_remove_2 in ND; apply ND; apply in_or_app; auto|].
    intros <-. destruct l2 as [|y l2]; auto. exfalso. cbn in s. pose proof (NoDup_remove_1 _ _ _ ND) as ND1. apply NoDup_remove_2 in ND1. apply ND1. apply in_or_app. auto. }
  assert (IN2 : forall b, In b l2 -> b <> a /\ (p = b -> p = 0)).
  { intros b IB. split; [intros ->; apply NoDup_remove_2 in ND; apply ND; apply in_or_app; auto|].
    intros <-. destruct l1 as [|y l1]; auto. exfalso.
    assert (In p (y :: l1)) by (apply last_in; congruence).
    apply in_split in H as (k1 & k2 & EE). rewrite EE in ND. rewrite <- app_assoc in ND. cbn in ND. apply NoDup_remove_2 in ND.
    apply ND. apply in_or_app. right. apply in_or_app. right. cbn. auto. }
  split; [|split].
  - split; [eapply NoDup_remove_1; eauto|]. split. { intros I0. apply NZ. apply in_app_iff in I0. apply in_or_app. cbn. tauto. }
    split.
    { rewrite HD. destruct l1 as [|y l1].
      - cbn [app hd]. rewrite Z.eqb_refl. cbn [tail]. destruct (tail q =? a); reflexivity.
      - cbn [app hd]. destruct (y =? a) eqn:Q. { destruct (IN1 y); [cbn; auto|lia]. }
        destruct (tail q =? a); cbn [head]; auto. }
    split.
    { intros NE. assert (T0 : tail q = last (l1 ++ a :: l2) 0) by (apply TL; destruct l1; discriminate).
      destruct l2 as [|y l2].
      - rewrite last_last in T0. rewrite app_nil_r. 
        destruct (head q =? a); cbn [tail]; rewrite T0, Z.eqb_refl; reflexivity.
      - assert (T1 : tail q = last (l1 ++ y :: l2) 0).
        { rewrite T0. rewrite !last_app_ne by congruence. reflexivity. }
        assert (TN : (tail q =? a) = false).
        { assert (In (tail q) (y :: l2)) by (rewrite T1, last_app_ne by congruence; apply last_in; congruence).
          destruct (IN2 _ H). lia. }
        destruct (head q =? a); cbn [tail]; rewrite TN; auto. }
    intros m1 b m2 E.
    assert (SPL : (exists k, l1 = m1 ++ b :: k /\ m2 = k ++ l2) \/ (exists k, l2 = k ++ b :: m2 /\ m1 = l1 ++ k)).
    { clear - E. revert m1 E. induction l1 as [|x l1]; intros m1 E; cbn in E.
      - right. exists m1. auto.
      - destruct m1 as [|y m1]; inversion E; subst.
        + left. exists l1. auto.
        + destruct (IHl1 _ H1) as [(k & -> & ->)|(k & -> & ->)]; [left|right]; exists k; auto. }
    destruct SPL as [(k & E1 & ->)|(k & E2 & ->)].
    + destruct (P m1 b (k ++ a :: l2)) as (nb & LB & PB & NB). { rewrite E1, <- app_assoc. auto. }
      destruct (IN1 b) as (BA & BS). { rewrite E1. apply in_or_app; cbn; auto. }
      rewrite L', U2, U1. destruct (a =? b) eqn:Q1; [lia|].
      replace ((s =? b) && negb (s =? 0)) with false by (symmetry; destruct (s =? b) eqn:Q; auto; rewrite BS by lia; auto).
      destruct k as [|z k].
      * assert (PB' : p = b) by (unfold p; rewrite E1; apply last_last). rewrite PB'. rewrite Z.eqb_refl. destruct (b =? 0) eqn:B0.
        { exfalso. apply NZ. apply in_or_app. left. rewrite E1. apply in_or_app. right. cbn. lia. }
        cbn [andb negb]. rewrite LB. eexists. split; [reflexivity|]. auto.
      * replace ((p =? b) && negb (p =? 0)) with false. 2:{ symmetry. destruct (p =? b) eqn:Q; auto. exfalso.
          assert (p = last (z :: k) 0). { unfold p. rewrite E1. change (m1 ++ b :: z :: k) with (m1 ++ [b] ++ z :: k). rewrite app_assoc. apply last_app_ne. congruence. }
          rewrite E1, <- app_assoc in ND. cbn in ND. apply NoDup_remove_2 in ND. apply ND. apply in_or_app. right.
          replace b with (last (z :: k) 0) by lia. change (z :: k ++ a :: l2) with ((z :: k) ++ a :: l2). apply in_or_app. left. apply last_in. congruence. }
        exists nb. auto.
    + destruct (P (l1 ++ a :: k) b m2) as (nb & LB & PB & NB). { rewrite E2, <- app_assoc. auto. }
      destruct (IN2 b) as (BA & BP). { rewrite E2. apply in_or_app; cbn; auto. }
      rewrite L', U2, U1. destruct (a =? b) eqn:Q1; [lia|].
      replace ((p =? b) && negb (p =? 0)) with false by (symmetry; destruct (p =? b) eqn:Q; auto; rewrite BP by lia; auto).
      destruct k as [|z k].
      * assert (SB : s = b) by (unfold s; rewrite E2; auto). rewrite SB, Z.eqb_refl. destruct (b =? 0) eqn:B0.
        { exfalso. apply NZ. apply in_or_app. right. right. rewrite E2. cbn. lia. }
        cbn [andb negb]. rewrite LB. eexists. split; [reflexivity|]. rewrite app_nil_r. auto.
      * replace ((s =? b) && negb (s =? 0)) with false. 2:{ symmetry. destruct (s =? b) eqn:Q; auto. exfalso.
          assert (s = z) by (unfold s; rewrite E2; auto). rewrite E2 in ND. 
          apply NoDup_remove_1 in ND. cbn in ND. rewrite app_assoc_reverse in ND || idtac. 
          apply NoDup_remove_2 in ND. apply ND. apply in_or_app. right. apply in_or_app. right. cbn. lia. }
        exists nb. split; auto. split; auto. rewrite PB. rewrite !last_app_ne by congruence. auto.
  - split; intros b; unfold elt; rewrite L', U2, U1.
    + destruct (a =? b) eqn:Q; [assert (a = b) by lia; subst b; rewrite LA; auto|].
      destruct ((s =? b) && negb (s =? 0)) eqn:Q2. { assert (s = b) by lia. subst b. destruct (lookup h s); auto. }
      destruct ((p =? b) && negb (p =? 0)) eqn:Q3; auto. assert (p = b) by lia. subst b. destruct (lookup h p); auto.
    + destruct (a =? b) eqn:Q; [assert (a = b) by lia; subst b; rewrite LA; split; congruence|].
      destruct ((s =? b) && negb (s =? 0)) eqn:Q2. { assert (s = b) by lia. subst b. destruct (lookup h s); split; congruence. }
      destruct ((p =? b) && negb (p =? 0)) eqn:Q3; [|tauto]. assert (p = b) by lia. subst b. destruct (lookup h p); split; congruence.
  - intros b NI. rewrite L', U2, U1.
    destruct (a =? b) eqn:Q. { exfalso; apply NI. apply in_or_app. right. left. lia. }
    destruct ((s =? b) && negb (s =? 0)) eqn:Q2.
    { exfalso; apply NI. apply in_or_app. right. right. replace b with s by lia. apply hd_in. intros E. apply SZ in E. lia. }
    destruct ((p =? b) && negb (p =? 0)) eqn:Q3; auto.
    exfalso; apply NI. apply in_or_app. left. replace b with p by lia. apply last_in. intros E. apply PZ in E. lia.
Qed.

Fixpoint sym_run (h : heap) (qs : Z -> qdesc) (ops : list sym_op) : res (heap * (Z -> qdesc)) :=
  match ops with
  | [] => Ok (h, qs)
  | S_add i a :: r => bindr (sym_add_table h (qs i) a) (fun '(h, q) => sym_run h (fun j => if j =? i then q else qs j) r)
  | S_remove i a :: r => bindr (sym_remove_table h (qs i) a) (fun '(h, q) => sym_run h (fun j => if j =? i then q else qs j) r)
  end.
Definition op_item (o : sym_op) : Z := match o with S_add _ a | S_remove _ a => a end.

Lemma filter_in (a b : Z) l : In b (filter (fun x => negb (x =? a)) l) -> In b l /\ b <> a.
Proof. rewrite filter_In. intros (? & ?). split; auto. lia. Qed.

Lemma sym_run_ok ops : forall h qs s s', sym_steps s ops s' ->
  (forall i, d_ok h (qs i) (s i)) -> (forall i j a, In a (s i) -> In a (s j) -> i = j) ->
  (forall o, In o ops -> op_item o <> 0 /\ lookup h (op_item o) <> None) ->
  exists h' qs', sym_run h qs ops = Ok (h', qs') /\ same_els h h' /\ (forall i, d_ok h' (qs' i) (s' i)).
Proof.
  induction ops as [|o ops]; intros h qs s s' ST D DJ IT; inversion ST; subst.
  - exists h, qs. repeat split; auto; try apply D; tauto.
  - destruct o as [i a|i a]; cbn in H2; destruct H2 as (PRE & S1); cbn [sym_run].
    + destruct (IT (S_add i a) (or_introl eq_refl)) as (AZ & AL). cbn in AZ, AL.
      destruct (lookup h a) as [n|] eqn:LA; [|congruence].
      destruct (sym_add_ok h (qs i) (s i) a n (D i) (PRE i) AZ LA) as (h1 & q1 & E & D1 & SE & SM). rewrite E. cbn [bindr].
      destruct (IHops h1 (fun j => if j =? i then q1 else qs j) s1 s' H4) as (h' & qs' & E' & SE' & D').
      * intros j. rewrite S1. destruct (j =? i) eqn:J. { assert (j = i) by lia. subst; auto. }
        eapply d_ok_ext; [|apply D]. intros b IB. apply SM.
        -- intros ->. eapply PRE; eauto.
        -- intros I2. assert (j = i) by eauto. lia.
      * intros j k b. rewrite !S1. destruct (j =? i) eqn:J, (k =? i) eqn:K; try lia; rewrite ?in_app_iff; cbn [In]; intros A B.
        -- exfalso. destruct A as [A|[<-|[]]]; [|eapply PRE; eauto]. assert (j = k) by eauto. lia.
        -- exfalso. destruct B as [B|[<-|[]]]; [|eapply PRE; eauto]. assert (j = k) by eauto. lia.
        -- eauto.
      * intros o I. destruct (IT o (or_intror I)). split; auto. destruct SE as (_ & DM). rewrite DM. auto.
      * exists h', qs'. split; auto. split; auto. eapply same_els_trans; eauto.
    + destruct (sym_remove_ok h (qs i) (s i) a (D i) PRE) as (h1 & q1 & E & D1 & SE & SM). rewrite E. cbn [bindr].
      destruct (IHops h1 (fun j => if j =? i then q1 else qs j) s1 s' H4) as (h' & qs' & E' & SE' & D').
      * intros j. rewrite S1. destruct (j =? i) eqn:J. { assert (j = i) by lia. subst; auto. }
        eapply d_ok_ext; [|apply D]. intros b IB. apply SM. intros I2. assert (j = i) by eauto. lia.
      * intros j k b. rewrite !S1. destruct (j =? i) eqn:J, (k =? i) eqn:K; try lia; intros A B; try apply filter_in in A; try apply filter_in in B; eapply DJ; try apply A; try apply B.
      * intros o I. destruct (IT o (or_intror I)). split; auto. destruct SE as (_ & DM). rewrite DM. auto.
      * exists h', qs'. split; auto. split; auto. eapply same_els_trans; eauto.
Qed.

Lemma sym_tables h ops s : sym_steps (fun _ => []) ops s ->
  (forall o, In o ops -> op_item o <> 0 /\ lookup h (op_item o) <> None) ->
  exists h' qs, sym_run h (fun _ => mk_q 0 0) ops = Ok (h', qs) /\
    forall i, walk (length h') h' (head (qs i)) = Ok (els h (s i)).
Proof.
  intros ST IT. destruct (sym_run_ok ops h (fun _ => mk_q 0 0) _ s ST) as (h' & qs & E & (SE & _) & D); auto.
  - intros i. split; [constructor|]. split; [auto|]. split; [auto|]. split; [congruence|]. intros l1 a l2 Q. destruct l1; discriminate.
  - intros i j a [].
  - exists h', qs. split; auto. intros i. pose proof (d_chain _ _ _ (D i)) as C. destruct (D i) as (ND & _).
    rewrite (walk_chain _ _ _ _ C) by (eapply incl_len; eauto). f_equal. apply els_ext; auto.
Qed.

(** *** the line queue *)
Lemma AddLine_ok alloc h q l d : alloc_ok alloc -> q_ok h q l ->
  exists h' q' a, AddLineQueue alloc h q d = Ok (h', q') /\ q_ok h' q' (l ++ [a]) /\ lookup h a = None /\ a <> 0 /\
   (forall b, lookup h b <> None -> ~ In b l -> lookup h' b = lookup h b) /\
   (forall b, lookup h b <> None -> elt h' b = elt h b) /\ elt h' a = d /\ lookup h' a <> None.
Proof.
  intros AO Q. destruct (AO h) as (NZ & FR). unfold AddLineQueue. set (a := alloc h) in *. clearbody a.
  pose proof (fresh_notin _ _ _ _ Q FR) as NI. set (h0 := update h a (mk_node 0 0 d)).
  assert (Q0 : q_ok h0 q l).
  { eapply q_ok_ext; [|exact Q]. intros b I. unfold h0. rewrite lookup_update. destruct (a =? b) eqn:F; auto. assert (a = b) by lia. subst; contradiction. }
  assert (G : exists h' q', (if head q =? 0 then Ok (h0, mk_q a a) else bindr (set_nx h0 (tail q) a) (fun h => Ok (h, mk_q (head q) a))) = Ok (h', q') /\ appended h0 h' q q' l a).
  { pose proof (head_zero _ _ _ Q0) as HZ. rewrite HZ. destruct l as [|x l].
    - eexists _, _. split; [reflexivity|].
      replace (mk_q a a) with (mk_q (if head q =? 0 then a else head q) a) by (rewrite HZ; auto).
      apply append_gen; auto; try congruence.
      exists (mk_node 0 0 d). unfold elt, h0. rewrite lookup_update, Z.eqb_refl. auto.
    - pose proof Q0 as (C & ND & T).
      assert (IL : In (last (x :: l) 0) (x :: l)) by (apply last_in; congruence).
      destruct (chain_dom _ _ _ _ C IL) as (TZ & m & LM). rewrite T by congruence.
      assert (NE : last (x :: l) 0 <> a) by congruence.
      rewrite (set_nx_ok h0 _ a m) by auto. cbn [bindr]. eexists _, _. split; [reflexivity|].
      replace (mk_q (head q) a) with (mk_q (if head q =? 0 then a else head q) a) by (rewrite HZ; auto).
      apply append_gen; auto.
      + exists (mk_node 0 0 d). rewrite lookup_update. destruct (_ =? a) eqn:E; [lia|]. unfold elt, h0. rewrite lookup_update, Z.eqb_refl. auto.
      + intros b B1 [B2|B2]; [congruence|]. rewrite lookup_update. destruct (last (x :: l) 0 =? b) eqn:E; [lia|auto].
      + intros _. exists (mk_node a (pv m) (el m)). rewrite lookup_update, Z.eqb_refl. unfold elt. rewrite LM. auto. }
  destruct G as (h' & q' & E & P1 & P2 & P3 & P4).
  exists h', q', a. split; auto. split; auto. split; auto. split; auto. repeat split; auto.
  - intros b B I. assert (b <> a) by congruence. rewrite P2 by auto. unfold h0. rewrite lookup_update. destruct (a =? b) eqn:F; auto; lia.
  - intros b B. rewrite P3. unfold elt, h0. rewrite lookup_update. destruct (a =? b) eqn:F; auto. assert (a = b) by lia. congruence.
  - rewrite P3. unfold elt, h0. rewrite lookup_update, Z.eqb_refl. auto.
Qed.

Definition conv (a : action) : act := match a with A_add x => Add x | A_run => Run end.

Section LQ.
  Variable alloc : heap -> Z.
  Variable effect : Z -> list action.
  Hypothesis AO : alloc_ok alloc.
  Let eff x := map conv (effect x).

  (** everything outside [own] is untouched and not in the new queue *)
  Definition frame (h h' : heap) (own lq' : list Z) : Prop :=
    forall b, lookup h b <> None -> ~ In b own -> lookup h' b = lookup h b /\ ~ In b lq'.

  Lemma q_dom h q l b : q_ok h q l -> In b l -> lookup h b <> None.
  Proof. intros (C & _) I. destruct (chain_dom _ _ _ _ C I) as (_ & n & L). congruence. Qed.
  Lemma c_dom h p l b : chain h p l -> In b l -> lookup h b <> None.
  Proof. intros C I. destruct (chain_dom _ _ _ _ C I) as (_ & n & L). congruence. Qed.

  Definition RunPost (h : heap) (own lc lq : list Z) (r : heap * qdesc * list Z) : Prop :=
    let '(h', q', t) := r in
    exists lq', q_ok h' q' lq' /\ lines eff (els h lc) (els h lq) t (els h' lq') /\ frame h h' own lq'.
  Definition ActPost (h : heap) (lq : list Z) (acts_l : list action) (r : heap * qdesc * list Z) : Prop :=
    let '(h', q', t) := r in
    exists lq', q_ok h' q' lq' /\ acts eff (map conv acts_l) (els h lq) t (els h' lq') /\ frame h h' lq lq'.

  Lemma acts_sound run : 
    (forall h q l, q_ok h q l -> match run h q with UB => False | Err => True | Ok r => RunPost h l l [] r end) ->
    forall al h q l, q_ok h q l ->
    match run_acts alloc run al h q with UB => False | Err => True | Ok r => ActPost h l al r end.
  Proof.
    intros HR. induction al as [|[x|] al]; intros h q l Q; cbn [run_acts].
    - exists l. split; auto. split; [constructor|]. intros b _ NI; auto.
    - destruct (AddLine_ok alloc h q l x AO Q) as (h1 & q1 & a & E & Q1 & FR & NZ & S1 & S2 & EL & DA). rewrite E. cbn [bindr].
      specialize (IHal h1 q1 (l ++ [a]) Q1). destruct (run_acts alloc run al h1 q1) as [[[h' q'] t]| |]; auto.
      destruct IHal as (lq' & Q' & AC & F). exists lq'. split; auto. split.
      + cbn [map conv]. constructor. replace (els h l ++ [x]) with (els h1 (l ++ [a])); auto.
        unfold els. rewrite map_app. cbn [map]. rewrite EL. f_equal. apply map_ext_in. intros b I. apply S2. eapply q_dom; eauto.
      + intros b B NI. assert (b <> a) by congruence. assert (L1 : lookup h1 b = lookup h b) by (apply S1; auto).
        destruct (F b) as (F1 & F2). { congruence. } { rewrite in_app_iff. cbn. intros [?|[?|[]]]; congruence. } split; congruence.
    - pose proof (HR h q l Q) as R. destruct (run h q) as [[[h1 q1] t1]| |]; cbn [bindr]; auto.
      destruct R as (l1 & Q1 & LN & F1). specialize (IHal h1 q1 l1 Q1).
      destruct (run_acts alloc run al h1 q1) as [[[h' q'] t]| |]; cbn [bindr]; auto.
      destruct IHal as (lq' & Q' & AC & F). exists lq'. split; auto. split.
      + cbn [map conv]. econstructor; eauto.
      + intros b B NI. destruct (F1 b B NI) as (A1 & A2). destruct (F b) as (B1 & B2); [congruence|auto|]. split; congruence.
  Qed.

  Lemma run_sound fuel : forall h q lq curr lc, q_ok h q lq -> chain h curr lc -> NoDup lc ->
    (forall b, In b lc -> ~ In b lq) ->
    match run_loop alloc effect fuel h q curr with UB => False | Err => True | Ok r => RunPost h (lc ++ lq) lc lq r end.
  Proof.
    induction fuel as [|f]; intros h q lq curr lc Q C ND DJ.
    - cbn. destruct (curr =? 0) eqn:CZ; auto. destruct lc; [|cbn in C; destruct C as (? & ? & _); lia].
      exists lq. split; auto. split; [constructor|]. intros b _ NI; auto.
    - cbn [run_loop]. destruct (curr =? 0) eqn:CZ.
      { destruct lc; [|cbn in C; destruct C as (? & ? & _); lia]. exists lq. split; auto. split; [constructor|]. intros b _ NI; auto. }
      destruct lc as [|a lc]; [cbn in C; lia|]. cbn in C. destruct C as (-> & NZ & n & LK & C).
      rewrite (get_ok h a n) by auto. cbn [bindr]. apply NoDup_cons_iff in ND as (NA & ND).
      set (h0 := free h a).
      assert (L0 : forall b, b <> a -> lookup h0 b = lookup h b).
      { intros b NB. unfold h0. rewrite lookup_free. destruct (a =? b) eqn:E; auto; lia. }
      assert (Q0 : q_ok h0 q lq). { eapply q_ok_ext; [|exact Q]. intros b I. apply L0. intros ->. apply (DJ a); cbn; auto. }
      assert (C0 : chain h0 (nx n) lc). { eapply chain_ext; [|exact C]. intros b I. apply L0. congruence. }
      assert (E0 : els h0 lq = els h lq). { apply els_ext. intros b I. unfold elt. rewrite L0; auto. intros ->. apply (DJ a); cbn; auto. }
      assert (E1 : els h0 lc = els h lc). { apply els_ext. intros b I. unfold elt. rewrite L0; auto. congruence. }
      pose proof (acts_sound (fun h q => run_loop alloc effect f h (mk_q 0 (tail q)) (head q))) as AS.
      assert (HR : forall h q l, q_ok h q l -> match run_loop alloc effect f h (mk_q 0 (tail q)) (head q) with UB => False | Err => True | Ok r => RunPost h l l [] r end).
      { intros h1 q1 l1 (C1 & N1 & T1). specialize (IHf h1 (mk_q 0 (tail q1)) [] (head q1) l1). rewrite app_nil_r in IHf. apply IHf; auto.
        split; [reflexivity|]. split; [constructor|congruence]. }
      specialize (AS HR (effect (el n)) h0 q lq Q0).
      destruct (run_acts alloc _ (effect (el n)) h0 q) as [[[h1 q1] t1]| |]; cbn [bindr]; auto.
      destruct AS as (l1 & Q1 & AC & F1).
      assert (C1 : chain h1 (nx n) lc).
      { eapply chain_ext; [|exact C0]. intros b I. apply F1; [eapply c_dom; eauto|]. apply DJ. cbn; auto. }
      specialize (IHf h1 q1 l1 (nx n) lc Q1 C1 ND).
      assert (DJ1 : forall b, In b lc -> ~ In b l1).
      { intros b I. apply F1; [eapply c_dom; eauto|]. apply DJ. cbn; auto. }
      specialize (IHf DJ1). destruct (run_loop alloc effect f h1 q1 (nx n)) as [[[h2 q2] t2]| |]; cbn [bindr]; auto.
      destruct IHf as (l2 & Q2 & LN & F2). exists l2. split; auto. split.
      + cbn [els map]. fold (els h lc). replace (elt h a) with (el n) by (unfold elt; rewrite LK; auto).
        rewrite E0 in AC. econstructor; [exact AC|]. rewrite <- E1. replace (els h0 lc) with (els h1 lc); auto.
        apply els_ext. intros b I. unfold elt. destruct (F1 b) as (-> & _); auto. eapply c_dom; eauto. apply DJ; cbn; auto.
      + intros b B NI. cbn in NI. rewrite in_app_iff in NI. assert (NB : b <> a) by (intros ->; apply NI; auto).
        destruct (F1 b) as (A1 & A2). { rewrite L0 by auto. auto. } { tauto. }
        destruct (F2 b) as (B1 & B2). { rewrite A1, L0 by auto. auto. } { rewrite in_app_iff. tauto. }
        split; auto. rewrite B1, A1, L0; auto.
  Qed.

  Lemma acts_mono run run' : (forall h q r, run h q = Ok r -> run' h q = Ok r) ->
    forall al h q r, run_acts alloc run al h q = Ok r -> run_acts alloc run' al h q = Ok r.
  Proof.
    intros M. induction al as [|[x|] al]; intros h q r H; cbn [run_acts] in *; auto.
    - destruct (AddLineQueue alloc h q x) as [[h1 q1]| |]; cbn [bindr] in *; try discriminate. auto.
    - destruct (run h q) as [[[h1 q1] t1]| |] eqn:R; cbn [bindr] in *; try discriminate. rewrite (M _ _ _ R). cbn [bindr].
      destruct (run_acts alloc run al h1 q1) as [[[h2 q2] t2]| |] eqn:R2; cbn [bindr] in *; try discriminate. rewrite (IHal _ _ _ R2). cbn [bindr]. auto.
  Qed.
  Lemma run_loop_mono f : forall h q c r, run_loop alloc effect f h q c = Ok r -> forall f', (f <= f')%nat -> run_loop alloc effect f' h q c = Ok r.
  Proof.
    induction f as [|f]; intros h q c r H f' LE.
    - cbn in H. destruct (c =? 0) eqn:E; [|discriminate]. destruct f'; cbn; rewrite E; auto.
    - destruct f' as [|f']; [lia|]. cbn [run_loop] in *. destruct (c =? 0); auto.
      destruct (get h c) as [n| |]; cbn [bindr] in *; try discriminate.
      destruct (run_acts alloc (fun h q => run_loop alloc effect f h (mk_q 0 (tail q)) (head q)) (effect (el n)) (free h c) q) as [[[h1 q1] t1]| |] eqn:R; cbn [bindr] in *; try discriminate.
      rewrite (acts_mono _ (fun h q => run_loop alloc effect f' h (mk_q 0 (tail q)) (head q))) with (2 := R).
      2:{ intros. apply IHf; auto. lia. } cbn [bindr].
      destruct (run_loop alloc effect f h1 q1 (nx n)) as [[[h2 q2] t2]| |] eqn:R2; cbn [bindr] in *; try discriminate.
      rewrite (IHf _ _ _ _ R2) by lia. cbn [bindr]. auto.
  Qed.
  Lemma run_acts_mono f f' al h q r : (f <= f')%nat ->
    run_acts alloc (fun h q => run_loop alloc effect f h (mk_q 0 (tail q)) (head q)) al h q = Ok r ->
    run_acts alloc (fun h q => run_loop alloc effect f' h (mk_q 0 (tail q)) (head q)) al h q = Ok r.
  Proof. intros LE. apply acts_mono. intros. eapply run_loop_mono; eauto. Qed.

  Scheme lines_mut := Induction for lines Sort Prop with acts_mut := Induction for acts Sort Prop.

  (** a terminating expansion is computed with enough fuel *)
  Lemma run_complete xs qx t qx' : lines eff xs qx t qx' ->
    forall h q lq curr lc, q_ok h q lq -> chain h curr lc -> NoDup lc ->
    (forall b, In b lc -> ~ In b lq) -> els h lc = xs -> els h lq = qx ->
    exists F, forall fuel, (F <= fuel)%nat -> exists h' q', run_loop alloc effect fuel h q curr = Ok (h', q', t).
  Proof.
    intros L.
    set (P := fun (xs qx t qx' : list Z) (_ : lines eff xs qx t qx') => forall h q lq curr lc, q_ok h q lq -> chain h curr lc -> NoDup lc ->
         (forall b, In b lc -> ~ In b lq) -> els h lc = xs -> els h lq = qx ->
         exists F, forall fuel, (F <= fuel)%nat -> exists h' q' l', run_loop alloc effect fuel h q curr = Ok (h', q', t) /\ q_ok h' q' l' /\ els h' l' = qx' /\ frame h h' (lc ++ lq) l').
    set (P0 := fun (al : list act) (qx t qx' : list Z) (_ : acts eff al qx t qx') => forall al' h q lq, map conv al' = al -> q_ok h q lq -> els h lq = qx ->
         exists F, forall fuel, (F <= fuel)%nat -> exists h' q' l', run_acts alloc (fun h q => run_loop alloc effect fuel h (mk_q 0 (tail q)) (head q)) al' h q = Ok (h', q', t)
           /\ q_ok h' q' l' /\ els h' l' = qx' /\ frame h h' lq l').
    assert (G : P xs qx t qx' L).
    2:{ intros h q lq curr lc Q C ND DJ E1 E2. destruct (G h q lq curr lc Q C ND DJ E1 E2) as (F & HF). exists F. intros fuel LE.
      destruct (HF fuel LE) as (h' & q' & l' & ? & _). eauto. }
    apply (lines_mut eff P P0); unfold P, P0; clear - AO.
    - intros q0 h q lq curr lc Q C ND DJ E1 E2. exists O. intros fuel _. destruct lc; [|discriminate]. cbn in C. subst curr.
      exists h, q, lq. split. { destruct fuel; reflexivity. } split; auto. split; auto. intros b _ NI; auto.
    - intros x l q0 t1 q1x t2 q2x A IHA LN IHL h q lq curr lc Q C ND DJ E1 E2.
      destruct lc as [|a lc]; [discriminate|]. cbn in C. destruct C as (-> & NZ & n & LK & C).
      cbn in E1. inversion E1 as [[EX EL]]. assert (EN : el n = x) by (rewrite <- EX; unfold elt; rewrite LK; auto).
      apply NoDup_cons_iff in ND as (NA & ND).
      set (h0 := free h a).
      assert (L0 : forall b, b <> a -> lookup h0 b = lookup h b).
      { intros b NB. unfold h0. rewrite lookup_free. destruct (a =? b) eqn:E; auto; lia. }
      assert (Q0 : q_ok h0 q lq). { eapply q_ok_ext; [|exact Q]. intros b I. apply L0. intros ->. apply (DJ a); cbn; auto. }
      assert (C0 : chain h0 (nx n) lc). { eapply chain_ext; [|exact C]. intros b I. apply L0. congruence. }
      assert (EQ0 : els h0 lq = els h lq). { apply els_ext. intros b I. unfold elt. rewrite L0; auto. intros ->. apply (DJ a); cbn; auto. }
      assert (EC0 : els h0 lc = els h lc). { apply els_ext. intros b I. unfold elt. rewrite L0; auto. congruence. }
      destruct (IHA (effect x) h0 q lq) as (F1 & H1); auto. { congruence. }
      destruct (H1 F1 (Nat.le_refl _)) as (h1' & q1' & l1' & R1 & QQ1 & EE1 & FF1).
      assert (C1 : chain h1' (nx n) lc).
      { eapply chain_ext; [|exact C0]. intros b I. apply FF1; [eapply c_dom; eauto|]. apply DJ. cbn; auto. }
      assert (DJ1 : forall b, In b lc -> ~ In b l1').
      { intros b I. apply FF1; [eapply c_dom; eauto|]. apply DJ. cbn; auto. }
      assert (EC1 : els h1' lc = l).
      { rewrite <- EL. fold (els h lc). rewrite <- EC0. apply els_ext. intros b I. unfold elt. destruct (FF1 b) as (-> & _); auto. eapply c_dom; eauto. apply DJ; cbn; auto. }
      destruct (IHL h1' q1' l1' (nx n) lc QQ1 C1 ND DJ1 EC1 EE1) as (F2 & H2).
      exists (S (Nat.max F1 F2)). intros fuel LE. destruct fuel as [|fuel]; [lia|]. cbn [run_loop].
      destruct (a =? 0) eqn:AZ; [lia|]. rewrite (get_ok h a n) by auto. cbn [bindr]. rewrite EN. fold h0.
      (* the result of the actions does not depend on fuel *)
      assert (MON : run_acts alloc (fun h q => run_loop alloc effect fuel h (mk_q 0 (tail q)) (head q)) (effect x) h0 q = Ok (h1', q1', t1)).
      { apply run_acts_mono with (f := F1); auto. lia. }
      rewrite MON. cbn [bindr]. destruct (H2 fuel) as (h2 & q2 & l2 & R2 & QQ2 & EE2 & FF2); [lia|]. rewrite R2. cbn [bindr].
      eexists _, _, l2. split; [try rewrite EX; reflexivity|]. split; auto. split; auto.
      intros b B NI. cbn in NI. rewrite in_app_iff in NI. assert (NB : b <> a) by (intros ->; apply NI; auto).
      destruct (FF1 b) as (A1 & A2). { rewrite L0 by auto. auto. } { tauto. }
      destruct (FF2 b) as (B1 & B2). { rewrite A1, L0 by auto. auto. } { rewrite in_app_iff. tauto. }
      split; auto. rewrite B1, A1, L0; auto.
    - intros q0 al' h q lq E Q EQ. destruct al'; [|discriminate]. exists O. intros fuel _. exists h, q, lq. cbn. repeat split; auto; try apply Q. 
    - intros x l q0 t0 q0' A IHA al' h q lq E Q EQ. destruct al' as [|[y|] al']; try discriminate. cbn in E. inversion E; subst y.
      destruct (AddLine_ok alloc h q lq x AO Q) as (h1 & q1 & a & EA & Q1 & FR & NZ & S1 & S2 & EL & DA).
      destruct (IHA al' h1 q1 (lq ++ [a])) as (F & HF); auto.
      { subst q0. unfold els. rewrite map_app. cbn [map]. rewrite EL. f_equal. apply map_ext_in. intros b I. apply S2. eapply q_dom; eauto. }
      exists F. intros fuel LE. destruct (HF fuel LE) as (h' & q' & l' & R & QQ & EE & FF). exists h', q', l'. cbn [run_acts]. rewrite EA. cbn [bindr].
      split; auto. split; auto. split; auto.
      intros b B NI. assert (b <> a) by congruence. assert (L1 : lookup h1 b = lookup h b) by (apply S1; auto).
      destruct (FF b) as (F1 & F2). { congruence. } { rewrite in_app_iff. cbn. intros [?|[?|[]]]; congruence. } split; congruence.
    - intros l q0 t1 q1x t2 q2x LN IHL A IHA al' h q lq E Q EQ. destruct al' as [|[y|] al']; try discriminate. cbn in E. inversion E.
      destruct (IHL h (mk_q 0 (tail q)) [] (head q) lq) as (F1 & H1); auto.
      { split; [reflexivity|]. split; [constructor|congruence]. } { apply Q. } { apply Q. }
      destruct (H1 F1 (Nat.le_refl _)) as (h1' & q1' & l1' & R1 & QQ1 & EE1 & FF1). rewrite app_nil_r in FF1.
      destruct (IHA al' h1' q1' l1' H0 QQ1 EE1) as (F2 & H2).
      exists (Nat.max F1 F2). intros fuel LE. cbn [run_acts].
      rewrite (run_loop_mono F1 h (mk_q 0 (tail q)) (head q) _ R1 fuel) by lia. cbn [bindr].
      destruct (H2 fuel) as (h2 & q2 & l2 & R2 & QQ2 & EE2 & FF2); [lia|]. rewrite R2. cbn [bindr].
      eexists _, _, l2. split; [reflexivity|]. split; auto. split; auto.
      intros b B NI. destruct (FF1 b B NI) as (A1 & A2). destruct (FF2 b) as (B1 & B2); [congruence|auto|]. split; congruence.
  Qed.
End LQ.

(** *** top-level statements for the line queue *)
Fixpoint add_lines (alloc : heap -> Z) (h : heap) (q : qdesc) (xs : list Z) : res (heap * qdesc) :=
  match xs with [] => Ok (h, q) | x :: r => bindr (AddLineQueue alloc h q x) (fun '(h, q) => add_lines alloc h q r) end.

Lemma add_lines_ok alloc xs : alloc_ok alloc -> forall h q l, q_ok h q l ->
  exists h' q' l', add_lines alloc h q xs = Ok (h', q') /\ q_ok h' q' l' /\ els h' l' = els h l ++ xs.
Proof.
  intros AO. induction xs as [|x xs]; intros h q l Q.
  - exists h, q, l. cbn. rewrite app_nil_r. auto.
  - destruct (AddLine_ok alloc h q l x AO Q) as (h1 & q1 & a & E & Q1 & FR & NZ & S1 & S2 & EL & DA).
    destruct (IHxs h1 q1 (l ++ [a]) Q1) as (h' & q' & l' & E' & Q' & EE). cbn [add_lines]. rewrite E. cbn [bindr].
    exists h', q', l'. split; auto. split; auto. rewrite EE. unfold els. rewrite map_app. cbn [map]. rewrite EL, <- app_assoc. cbn [app].
    f_equal. apply map_ext_in. intros b I. apply S2. eapply q_dom; eauto.
Qed.

Lemma q_ok_empty h t : q_ok h (mk_q 0 t) [].
Proof. split; [reflexivity|]. split; [constructor|congruence]. Qed.

Lemma line_queue alloc effect xs : alloc_ok alloc ->
  exists h q, add_lines alloc [] (mk_q 0 0) xs = Ok (h, q) /\
   (forall fuel, match RunLineQueue alloc effect fuel h q with
     | UB => False | Err => True
     | Ok (h', q', t) => exists rest, walk (length h') h' (head q') = Ok rest /\ lines (fun x => map conv (effect x)) xs [] t rest end) /\
   (forall t rest, lines (fun x => map conv (effect x)) xs [] t rest ->
     exists fuel h' q', RunLineQueue alloc effect fuel h q = Ok (h', q', t)).
Proof.
  intros AO. destruct (add_lines_ok alloc xs AO [] (mk_q 0 0) [] (q_ok_empty _ _)) as (h & q & l & E & Q & EL).
  cbn [els map app] in EL. exists h, q. split; auto. pose proof Q as (C & ND & T). split.
  - intros fuel. unfold RunLineQueue.
    pose proof (run_sound alloc effect AO fuel h (mk_q 0 (tail q)) [] (head q) l (q_ok_empty _ _) C ND ltac:(cbn; tauto)) as R.
    destruct (run_loop alloc effect fuel h (mk_q 0 (tail q)) (head q)) as [[[h' q'] t]| |]; auto.
    destruct R as (lq' & Q' & LN & _). exists (els h' lq'). rewrite EL in LN. split; auto.
    destruct Q' as (C' & ND' & _). rewrite (walk_chain _ _ _ _ C'); auto. eapply incl_len; eauto.
  - intros t rest L. destruct (run_complete alloc effect AO _ _ _ _ L h (mk_q 0 (tail q)) [] (head q) l (q_ok_empty _ _) C ND) as (F & HF); auto.
    destruct (HF F (Nat.le_refl _)) as (h' & q' & R). exists F, h', q'. exact R.
Qed.

From Coq Require Import Permutation.
Definition adds (l : list act) : list Z := flat_map (fun a => match a with Add x => [x] | Run => [] end) l.

Scheme lines_mut2 := Induction for lines Sort Prop with acts_mut2 := Induction for acts Sort Prop.
Lemma lines_once eff xs q t q' : lines eff xs q t q' ->
  Permutation (xs ++ q ++ flat_map (fun x => adds (eff x)) t) (t ++ q').
Proof.
  intros L.
  apply (lines_mut2 eff
    (fun xs q t q' _ => Permutation (xs ++ q ++ flat_map (fun x => adds (eff x)) t) (t ++ q'))
    (fun al q t q' _ => Permutation (q ++ adds al ++ flat_map (fun x => adds (eff x)) t) (t ++ q'))) with (l1 := t); auto; clear.
  - intros. cbn. rewrite app_nil_r. auto.
  - intros x l q t1 q1 t2 q2 A IHA L IHL. cbn [app flat_map]. rewrite flat_map_app. constructor.
    rewrite <- app_assoc. rewrite <- IHL. rewrite (app_assoc t1 l).
    rewrite (Permutation_app_comm t1 l), <- app_assoc. apply Permutation_app_head. rewrite (app_assoc t1 q1). rewrite <- IHA. rewrite !app_assoc. auto.
  - intros. cbn. rewrite app_nil_r. auto.
  - intros x l q t q' A IHA. cbn [adds flat_map]. fold (adds l). rewrite <- IHA. rewrite <- !app_assoc. auto.
  - intros l q t1 q1 t2 q2 L IHL A IHA. cbn [adds flat_map app]. fold (adds l). rewrite flat_map_app.
    rewrite <- app_assoc. rewrite <- IHA. cbn [app] in IHL. 
    rewrite (app_assoc t1 q1). rewrite <- IHL. rewrite <- !app_assoc. apply Permutation_app_head.
    rewrite !app_assoc. apply Permutation_app_tail. apply Permutation_app_comm.
Qed.

(** AddLinnumData histories; the entries are allocated by the caller *)
Fixpoint lin_run (h : heap) (q : qdesc) (l : list Z) : res (heap * qdesc) :=
  match l with [] => Ok (h, q) | a :: r => bindr (AddLinnumData h q a) (fun '(h, q) => lin_run h q r) end.
Lemma lin_ok l : forall h q pre, q_ok h q pre -> NoDup (pre ++ l) -> (forall a, In a l -> a <> 0 /\ lookup h a <> None) ->
  exists h' q', lin_run h q l = Ok (h', q') /\ q_ok h' q' (pre ++ l) /\ (forall b, elt h' b = elt h b).
Proof.
  induction l as [|a l]; intros h q pre Q ND IN.
  - exists h, q. rewrite app_nil_r. auto.
  - destruct (IN a (or_introl eq_refl)) as (AZ & LA). destruct (lookup h a) as [n|] eqn:LK; [|congruence].
    assert (NI : ~ In a pre). { apply NoDup_remove_2 in ND. intros I; apply ND, in_or_app; auto. }
    destruct (AddLinnum_ok h q pre a n Q NI AZ LK) as (h1 & q1 & E & Q1 & S1 & S2 & S3). cbn [lin_run]. rewrite E. cbn [bindr].
    destruct (IHl h1 q1 (pre ++ [a]) Q1) as (h' & q' & E' & Q' & EE).
    + rewrite <- app_assoc. auto.
    + intros b I. destruct (IN b (or_intror I)) as (BZ & LB). split; auto. 
      assert (b <> a /\ ~ In b pre) as (N1 & N2).
      { split; [intros ->; apply NoDup_remove_2 in ND; apply ND, in_or_app; auto|].
        intros I2. apply in_split in I2 as (p1 & p2 & ->). rewrite <- app_assoc in ND. cbn in ND. apply NoDup_remove_2 in ND. apply ND.
        apply in_or_app; right. apply in_or_app; right. cbn; auto. }
      rewrite S1; auto.
    + exists h', q'. rewrite <- app_assoc in Q'. split; auto. split; auto. intros b. rewrite EE, S2. auto.
Qed.
Lemma linnum_deliver h l : NoDup l -> (forall a, In a l -> a <> 0 /\ lookup h a <> None) ->
  exists h' q', lin_run h (mk_q 0 0) l = Ok (h', q') /\ walk (length h') h' (head q') = Ok (els h l).
Proof.
  intros ND IN. destruct (lin_ok l h (mk_q 0 0) [] (q_ok_empty _ _) ND IN) as (h' & q' & E & (C & N & _) & EE).
  exists h', q'. split; auto. cbn [app] in C. rewrite (walk_chain _ _ _ _ C) by (eapply incl_len; eauto). f_equal. apply els_ext; auto.
Qed.

(** DeleteLineQueue frees the queued lines, nothing else, and nothing twice *)
Lemma delete_ok l : forall h p fuel, chain h p l -> NoDup l -> (length l <= fuel)%nat ->
  exists h', delete_loop fuel h p = Ok h' /\ forall b, lookup h' b = if existsb (Z.eqb b) l then None else lookup h b.
Proof.
  induction l as [|a l]; intros h p fuel C ND F.
  - cbn in C. subst. exists h. split; [destruct fuel; reflexivity|auto].
  - cbn in C. destruct C as (-> & NZ & n & LK & C). destruct fuel; [cbn in F; lia|]. cbn [delete_loop].
    destruct (a =? 0) eqn:E; [lia|]. rewrite (get_ok h a n) by auto. cbn [bindr]. apply NoDup_cons_iff in ND as (NA & ND).
    destruct (IHl (free h a) (nx n) fuel) as (h' & E' & L'); auto.
    + eapply chain_ext; [|exact C]. intros b I. rewrite lookup_free. destruct (a =? b) eqn:Q; auto. assert (a = b) by lia. congruence.
    + cbn in F; lia.
    + exists h'. split; auto. intros b. rewrite L'. cbn [existsb]. rewrite lookup_free, (Z.eqb_sym b a). destruct (a =? b), (existsb (Z.eqb b) l); auto.
Qed.

Definition alloc_max (h : heap) : Z := 1 + fold_right (fun p m => Z.max (fst p) m) 0 h.
Lemma alloc_max_ok : alloc_ok alloc_max.
Proof.
  intros h. assert (G : forall h, 0 <= fold_right (fun (p : Z * node) m => Z.max (fst p) m) 0 h) by (induction h0; cbn; lia).
  split; [unfold alloc_max; pose proof (G h); lia|].
  assert (K : forall h a, fold_right (fun (p : Z * node) m => Z.max (fst p) m) 0 h < a -> lookup h a = None).
  { induction h0 as [|[b n] h0]; cbn; auto; intros a L. destruct (b =? a) eqn:E; [lia|]. apply IHh0. lia. }
  apply K. unfold alloc_max. lia.
Qed.
