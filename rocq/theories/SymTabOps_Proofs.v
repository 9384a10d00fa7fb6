From Coq Require Import FinFun.
From Verif Require Import Base SymTab_Model SymTab_Spec SymTabRun_Spec SymTab_Proofs.

Lemma lplace_end s t n : lplace s t n -> find (is t n) (loc t) = None -> lsym s = endp (LHead (lhash n)) (bL t (lhash n) (loc t)).
Proof. intros (pre & suf & E & L & F) N. rewrite N in F. destruct suf; [|discriminate]. rewrite app_nil_r in E. rewrite E. exact L. Qed.
Lemma gplace_end s t n : gplace s t n -> find (is t n) (glob t) = None -> gsym s = endp (GHead (ghash n)) (bG t (ghash n) (glob t)).
Proof. intros (pre & suf & E & L & F) N. rewrite N in F. destruct suf; [|discriminate]. rewrite app_nil_r in E. rewrite E. exact L. Qed.
Lemma visible_none t n : visible t n = None -> find_loc t n = None /\ find (is t n) (glob t) = None.
Proof. unfold visible. destruct (find_loc t n); [discriminate|auto]. Qed.
Lemma visible_cases t n p : visible t n = Some p -> find_loc t n = Some p \/ (find_loc t n = None /\ find (is t n) (glob t) = Some p).
Proof. unfold visible. destruct (find_loc t n) as [q|]; intros H; [left; exact H|right; auto]. Qed.
Lemma find_loc_in t n p c : cur t = Some c -> find_loc t n = Some p -> In p (loc t).
Proof. unfold find_loc. intros ->. intros F. apply find_some in F. tauto. Qed.
Lemma visible_lt own s t n p : rep own s t -> visible t n = Some p -> 0 <= p < next t.
Proof.
  intros R V. destruct (visible_cases t n p V) as [F|[_ F]].
  - unfold find_loc in F. destruct (cur t) as [c|] eqn:C; [|discriminate]. apply find_some in F as [F _]. apply (r_ownL _ _ _ R p c C F).
  - apply find_some in F as [F _]. apply (r_ownG _ _ _ R p F).
Qed.
Lemma det_fresh own s t : rep own s t -> without (next t) (next t :: det t) = det t.
Proof.
  intros R. unfold without. cbn [filter]. rewrite Z.eqb_refl. cbn [negb]. apply without_notin. intros I.
  destruct (r_ownD _ _ _ R _ I) as (_ & B & _). lia.
Qed.
Definition T1 (t : spec) (n : list Z) (u : bool) : spec :=
  set_scopes (add_name t n u) (glob t) (loc t) (next t :: det t) (dirty t).
Lemma names_T1 t n u x : x <> next t -> names (T1 t n u) x = names t x.
Proof. intros H. cbn [T1 set_scopes add_name names]. replace (x =? next t) with false by lia. reflexivity. Qed.
Lemma bG_T1 own s t n u i : rep own s t -> bG (T1 t n u) i (glob t) = bG t i (glob t).
Proof. intros R. apply bG_names. intros x I. apply names_T1. destruct (r_ownG _ _ _ R x I) as (_ & B & _). lia. Qed.
Lemma bL_T1 own s t n u i c : rep own s t -> cur t = Some c -> bL (T1 t n u) i (loc t) = bL t i (loc t).
Proof. intros R C. apply bL_names. intros x I. apply names_T1. destruct (r_ownL _ _ _ R x c C I) as (_ & B & _). lia. Qed.

(** new global symbol *)
Lemma new_global own s t n : rep own s t -> good_name n -> gsym s = endp (GHead (ghash n)) (bG t (ghash n) (glob t)) ->
  exists own' s', (let '(s, p) := SymAlloc s n in bindr (store s (gsym s) (Some p)) (fun s => Ok (set_count s (SymCount s + 1), Some p)))
     = Ok (s', Some (next t)) /\ rep own' s' (set_scopes (add_name t n true) (glob t ++ [next t]) (loc t) (det t) (dirty t)).
Proof.
  intros R G GP. pose proof (rep_new own s t n R G) as N. destruct (SymAlloc s n) as [s1 p]. cbv zeta in N.
  destruct N as (-> & R1 & NX & NM & _ & GS). fold (T1 t n true) in R1.
  destruct (rep_attachG _ s1 (T1 t n true) (next t) R1) as (s2 & E & R2 & _).
  - left. reflexivity.
  - exact NX.
  - assert (E : names (T1 t n true) (next t) = n) by (cbn [T1 set_scopes add_name names]; rewrite Z.eqb_refl; reflexivity).
    rewrite E, GS, GP. change (glob (T1 t n true)) with (glob t). rewrite (bG_T1 own s) by exact R. reflexivity.
  - rewrite E. cbn [bindr]. eexists _, _. split; [reflexivity|].
    change (det (T1 t n true)) with (next t :: det t) in R2. rewrite (det_fresh own s t R) in R2. exact R2.
Qed.

Lemma differs_refl p s : differs_at p s s.
Proof. split; reflexivity. Qed.
Lemma differs_heap p s y : differs_at p s (set_heap s (upd (heap s) p y)).
Proof. split; try reflexivity. intros x N. cbn [set_heap heap]. apply upd_other. exact N. Qed.
Lemma differs_heap2 p s y z : differs_at p s (set_heap (set_heap s (upd (heap s) p y)) (upd (heap (set_heap s (upd (heap s) p y))) p z)).
Proof. split; try reflexivity. intros x N. cbn [set_heap heap]. rewrite !upd_other by exact N. reflexivity. Qed.

(** new local symbol; [y] is the changed record *)
Lemma new_local own s t n c (f : sym -> sym) u : rep own s t -> good_name n -> cur t = Some c ->
  lsym s = endp (LHead (lhash n)) (bL t (lhash n) (loc t)) ->
  (forall y, s_name (f y) = s_name y) -> (forall y, nextitem (f y) = nextitem y) ->
  (forall y, s_state y = SYM_UNDEFINED -> (s_state (f y) =? SYM_UNDEFINED) = u) ->
  (forall y, scoped (f y) = true \/ u = false) ->
  exists own' s', (let '(s, p) := SymAlloc s n in
      let s := set_heap s (upd (heap s) p (f (heap s p))) in
      bindr (store s (lsym s) (Some p)) (fun s => Ok (s, Some p)))
     = Ok (s', Some (next t)) /\ rep own' s' (set_scopes (add_name t n u) (glob t) (loc t ++ [next t]) (det t) true).
Proof.
  intros R G C LP F1 F2 F3 F4. pose proof (rep_new own s t n R G) as N. pose proof G as [GB GL].
  destruct (SymAlloc s n) as [s1 p] eqn:SA. cbv zeta in N. destruct N as (-> & R1 & NX & NM & LS & _). fold (T1 t n true) in R1.
  assert (ST : s_state (heap s1 (next t)) = SYM_UNDEFINED).
  { unfold SymAlloc in SA. inversion SA as [[SA1 SA2]]. cbn [heap]. rewrite upd_same. reflexivity. }
  destruct (rep_attachL _ s1 (T1 t n true) (set_heap s1 (upd (heap s1) (next t) (f (heap s1 (next t))))) (T1 t n u) (next t) c R1) as (s2 & E & R2).
  - exact C.
  - left. reflexivity.
  - apply differs_heap.
  - unfold nx. cbn [set_heap heap]. rewrite upd_same, F2. exact NX.
  - cbn [T1 set_scopes add_name names]. rewrite Z.eqb_refl. exact GB.
  - unfold nm. cbn [set_heap heap T1 set_scopes add_name names]. rewrite upd_same, F1, Z.eqb_refl. exact NM.
  - cbn [set_heap heap T1 set_scopes add_name undef]. rewrite upd_same, Z.eqb_refl. apply F3. exact ST.
  - cbn [set_heap heap T1 set_scopes add_name undef]. rewrite upd_same, Z.eqb_refl. apply F4.
  - reflexivity.
  - intros x X. cbn [T1 set_scopes add_name undef]. replace (x =? next t) with false by lia. reflexivity.
  - reflexivity.
  - reflexivity.
  - reflexivity.
  - reflexivity.
  - reflexivity.
  - reflexivity.
  - reflexivity.
  - reflexivity.
  - assert (E : names (T1 t n u) (next t) = n) by (cbn [T1 set_scopes add_name names]; rewrite Z.eqb_refl; reflexivity).
    rewrite E, LS, LP. change (loc (T1 t n true)) with (loc t). rewrite (bL_T1 own s t n true _ c) by assumption. reflexivity.
  - cbv zeta. rewrite E. cbn [bindr]. eexists _, _. split; [reflexivity|].
    change (det (T1 t n true)) with (next t :: det t) in R2. rewrite (det_fresh own s t R) in R2. exact R2.
Qed.

(** a change to a symbol in no chain *)
Lemma rep_differs own s s1 t p : rep own s t -> In p (det t) -> differs_at p s s1 ->
  nm s1 p = nm s p -> s_state (heap s1 p) = s_state (heap s p) -> scoped (heap s1 p) = scoped (heap s p) -> rep own s1 t.
Proof.
  intros R D DF NM ST SC. destruct (det_notin own s t p R D) as (NG & NL & NS).
  assert (HN : forall x, nm s1 x = nm s x) by (intros x; destruct (Z.eq_dec x p) as [->|N]; [exact NM|unfold nm; rewrite (d_heap _ _ _ DF) by exact N; reflexivity]).
  assert (HT : forall x, s_state (heap s1 x) = s_state (heap s x)) by (intros x; destruct (Z.eq_dec x p) as [->|N]; [exact ST|rewrite (d_heap _ _ _ DF) by exact N; reflexivity]).
  assert (HC : forall x, scoped (heap s1 x) = scoped (heap s x)) by (intros x; destruct (Z.eq_dec x p) as [->|N]; [exact SC|rewrite (d_heap _ _ _ DF) by exact N; reflexivity]).
  assert (HX : forall l hd, ~ In p l -> lseg (nx s) hd l -> lseg (nx s1) hd l).
  { intros l hd NI L. apply lseg_frame with (nx := nx s); [exact L|]. intros x I. unfold nx. rewrite (d_heap _ _ _ DF) by congruence. reflexivity. }
  split.
  - rewrite (d_brk _ _ _ DF). apply (r_brk _ _ _ R).
  - apply (r_next _ _ _ R).
  - intros x X. rewrite HN. apply (r_nm _ _ _ R). exact X.
  - apply (r_bytes _ _ _ R).
  - intros x X. rewrite HT. apply (r_state _ _ _ R). exact X.
  - rewrite (d_cur _ _ _ DF). apply (r_cur _ _ _ R).
  - rewrite (d_stack _ _ _ DF). apply (r_stack _ _ _ R).
  - rewrite (d_case _ _ _ DF). apply (r_case _ _ _ R).
  - rewrite (d_count _ _ _ DF). apply (r_count _ _ _ R).
  - intros i. rewrite (d_gtab _ _ _ DF). apply HX; [|apply (r_G _ _ _ R)]. intros I. apply filter_In in I. tauto.
  - intros C i. rewrite (d_ltab _ _ _ DF). apply HX; [|apply (r_L _ _ _ R C)]. intros I. apply filter_In in I. tauto.
  - intros x I. rewrite HC. apply (r_ownG _ _ _ R x I).
  - intros x c C I. rewrite HC. apply (r_ownL _ _ _ R x c C I).
  - intros x I. rewrite HC. apply (r_ownD _ _ _ R x I).
  - apply (r_ndG _ _ _ R).
  - apply (r_ndL _ _ _ R).
  - apply (r_nds _ _ _ R).
  - apply (r_stk _ _ _ R).
  - apply (r_clean _ _ _ R).
  - intros q V. destruct (r_saved _ _ _ R q V) as (A & B & C & F). specialize (NS q V). split; [exact A|]. split; [|split].
    + intros x I. rewrite HC. apply (B x I).
    + rewrite (d_lab _ _ _ DF). apply lseg_frame with (nx := fun x => nextll (heap s x)); [exact C|].
      intros x I. rewrite (d_heap _ _ _ DF); [reflexivity|]. intros ->. apply NS, (heads_in t), I.
    + intros i. apply HX; [|apply F]. intros I. apply filter_In in I. tauto.
Qed.

(** a symbol becomes defined *)
Lemma rep_define own s t p v : rep own s t -> 0 <= p < next t -> v <> 0 ->
  rep own (set_heap s (upd (heap s) p (with_state (heap s p) v)))
    {| next := next t; names := names t; undef := fun x => if x =? p then false else undef t x;
       glob := glob t; loc := loc t; det := det t; saved := saved t; cur := cur t; stack := stack t; cs := cs t; dirty := dirty t |}.
Proof.
  intros R P V. set (s1 := set_heap _ _). set (t' := Build_spec _ _ _ _ _ _ _ _ _ _ _).
  assert (H : forall x, heap s1 x = if x =? p then with_state (heap s p) v else heap s x) by reflexivity.
  assert (HN : forall x, nm s1 x = nm s x) by (intros x; unfold nm; rewrite H; destruct (Z.eqb_spec x p) as [->|]; reflexivity).
  assert (HX : forall x, nx s1 x = nx s x) by (intros x; unfold nx; rewrite H; destruct (Z.eqb_spec x p) as [->|]; reflexivity).
  assert (HL : forall x, nextll (heap s1 x) = nextll (heap s x)) by (intros x; rewrite H; destruct (Z.eqb_spec x p) as [->|]; reflexivity).
  assert (HC : forall x, scoped (heap s1 x) = scoped (heap s x)) by (intros x; rewrite H; destruct (Z.eqb_spec x p) as [->|]; reflexivity).
  assert (HU : forall x, scoped (heap s x) = true \/ undef t x = false -> scoped (heap s1 x) = true \/ undef t' x = false).
  { intros x [A|A]; [left; rewrite HC; exact A|]. right. cbn [t' undef]. destruct (x =? p); auto. }
  assert (LX : forall l hd, lseg (nx s) hd l -> lseg (nx s1) hd l) by (intros l hd L; apply lseg_frame with (nx := nx s); auto).
  split; try (first [apply (r_brk _ _ _ R)|apply (r_next _ _ _ R)|apply (r_bytes _ _ _ R)|apply (r_cur _ _ _ R)|apply (r_stack _ _ _ R)|apply (r_case _ _ _ R)|
    apply (r_count _ _ _ R)|apply (r_ndG _ _ _ R)|apply (r_ndL _ _ _ R)|apply (r_nds _ _ _ R)|apply (r_stk _ _ _ R)|apply (r_clean _ _ _ R)]).
  - intros x X. rewrite HN. apply (r_nm _ _ _ R). exact X.
  - intros x X. rewrite H. cbn [t' undef]. destruct (Z.eqb_spec x p) as [->|N]; [cbn [with_state s_state]; unfold SYM_UNDEFINED; lia|]. apply (r_state _ _ _ R). exact X.
  - intros i. apply LX. apply (r_G _ _ _ R).
  - intros C i. apply LX. apply (r_L _ _ _ R C).
  - intros x I. rewrite HC. apply (r_ownG _ _ _ R x I).
  - intros x c C I. destruct (r_ownL _ _ _ R x c C I) as (A & B & D). auto.
  - intros x I. rewrite HC. apply (r_ownD _ _ _ R x I).
  - intros q VQ. destruct (r_saved _ _ _ R q VQ) as (A & B & C & F). split; [exact A|]. split; [|split].
    + intros x I. destruct (B x I) as (B1 & B2 & B3). auto.
    + apply lseg_frame with (nx := fun x => nextll (heap s x)); [exact C|]. intros x _. apply HL.
    + intros i. apply LX. apply F.
Qed.

(** ** Saving and restoring the local table *)
Definition opt_list {A} (o : option A) : list A := match o with Some x => [x] | None => [] end.
Record same_but_ll (P : Z -> Prop) (q : Z) (s s' : tabs) : Prop := {
  l_brk : brk s' = brk s; l_cur : CurrProc s' = CurrProc s; l_stack : ProcStack s' = ProcStack s; l_case : case_sensitive s' = case_sensitive s;
  l_count : SymCount s' = SymCount s; l_gtab : gsym_table s' = gsym_table s; l_ltab : lsym_table s' = lsym_table s;
  l_nm : forall x, nm s' x = nm s x; l_nx : forall x, nx s' x = nx s x; l_state : forall x, s_state (heap s' x) = s_state (heap s x);
  l_scoped : forall x, scoped (heap s' x) = scoped (heap s x);
  l_ll : forall x, ~ P x -> nextll (heap s' x) = nextll (heap s x);
  l_lab : forall x, x <> q -> labellist s' x = labellist s x }.
Lemma sbl_trans (P Q : Z -> Prop) q a b c : same_but_ll P q a b -> same_but_ll Q q b c -> (forall x, P x -> Q x) -> same_but_ll Q q a c.
Proof.
  intros [] [] I. split; try congruence.
  intros x N. rewrite l_ll1, l_ll0 by auto. reflexivity.
  intros x N. rewrite l_lab1, l_lab0 by auto. reflexivity.
Qed.
Definition put (proc : Z) (lst : option Z) (v : option Z) (s : tabs) : tabs :=
  match lst with
  | None => set_labellist s (upd (labellist s) proc v)
  | Some q => set_heap s (upd (heap s) q (with_nextll (heap s q) v))
  end.
Lemma put_same proc lst v s : same_but_ll (fun x => lst = Some x) proc s (put proc lst v s).
Proof.
  destruct lst as [q|]; cbn [put]; split; try reflexivity; try (intros x; unfold nm, nx; cbn [set_heap heap]; unfold upd; destruct (Z.eqb_spec x q) as [->|]; reflexivity).
  - intros x N. cbn [set_heap heap]. rewrite upd_other; [reflexivity|congruence].
  - intros x N. cbn [set_labellist labellist]. rewrite upd_other by exact N. reflexivity.
Qed.
Definition link (proc : Z) (lst : option Z) (s : tabs) : option Z :=
  match lst with None => labellist s proc | Some q => nextll (heap s q) end.
Lemma link_put proc lst v s : link proc lst (put proc lst v s) = v.
Proof. destruct lst as [q|]; cbn [link put set_heap set_labellist heap labellist]; rewrite upd_same; reflexivity. Qed.
Fixpoint collect (n : nat) (i : Z) (tb : Z -> option Z) : list Z :=
  match n with O => [] | S n => opt_list (tb i) ++ collect n (i + 1) tb end.
Lemma sbl_mono (P Q : Z -> Prop) q a b : same_but_ll P q a b -> (forall x, P x -> Q x) -> same_but_ll Q q a b.
Proof. intros [] I. split; auto. Qed.
Lemma get_local_spec proc : forall n i lst s, NoDup (opt_list lst ++ collect n i (lsym_table s)) ->
  let s' := get_local n i proc lst s in
  let l := collect n i (lsym_table s) in
  same_but_ll (fun x => In x (opt_list lst ++ l)) proc s s' /\ link proc lst s' = hd_error l /\
  lseg (fun x => nextll (heap s' x)) (hd_error l) l /\ (lst <> None -> labellist s' proc = labellist s proc).
Proof.
  induction n as [|n IH]; intros i lst s ND; cbv zeta; cbn [get_local collect].
  - change (match lst with Some q => _ | None => _ end) with (put proc lst None s). rewrite app_nil_r.
    split; [|split; [apply link_put|split; [reflexivity|destruct lst; [reflexivity|congruence]]]].
    apply (sbl_mono (fun x => lst = Some x)); [apply put_same|]. intros x ->. left. reflexivity.
  - cbn [collect] in ND. destruct (lsym_table s i) as [p|] eqn:T; cbn [opt_list app] in *.
    + change (match lst with Some q => set_heap s (upd (heap s) q (with_nextll (heap s q) (Some p))) | None => set_labellist s (upd (labellist s) proc (Some p)) end)
        with (put proc lst (Some p) s).
      pose proof (put_same proc lst (Some p) s) as K.
      specialize (IH (i + 1) (Some p) (put proc lst (Some p) s)). cbv zeta in IH. rewrite (l_ltab _ _ _ _ K) in IH.
      set (l := collect n (i + 1) (lsym_table s)) in *.
      destruct IH as (A & B & C & D).
      { clear -ND. destruct lst as [q|]; cbn [opt_list app] in *; [apply NoDup_cons_iff in ND; tauto|exact ND]. }
      cbn [opt_list app] in A, B. cbn [link] in B. specialize (D ltac:(discriminate)).
      set (s' := get_local n (i + 1) proc (Some p) (put proc lst (Some p) s)) in *.
      split; [|split; [|split]].
      * apply (sbl_trans (fun x => lst = Some x) (fun x => In x (opt_list lst ++ p :: l)) proc s (put proc lst (Some p) s)).
        -- exact K.
        -- apply (sbl_mono _ _ _ _ _ A). intros x I. apply in_or_app. right. exact I.
        -- intros x ->. left. reflexivity.
      * cbn [hd_error]. destruct lst as [q|]; cbn [link].
        -- rewrite (l_ll _ _ _ _ A); [apply (link_put proc (Some q))|]. cbn [opt_list app] in ND. apply NoDup_cons_iff in ND as [N _]. exact N.
        -- rewrite D. apply (link_put proc None).
      * cbn [hd_error lseg]. split; [reflexivity|]. rewrite B. exact C.
      * intros N. rewrite D. destruct lst; [reflexivity|congruence].
    + apply IH. exact ND.
Qed.
Lemma get_local_all proc n s hs : collect n 0 (lsym_table s) = hs -> NoDup hs ->
  let s' := get_local n 0 proc None s in
  same_but_ll (fun x => In x hs) proc s s' /\ labellist s' proc = hd_error hs /\ lseg (fun x => nextll (heap s' x)) (hd_error hs) hs.
Proof.
  intros <- ND. destruct (get_local_spec proc n 0 None s ND) as (A & B & C & _). auto.
Qed.
Lemma collect_heads t l tb n : n = 128%nat -> (forall i, tb i = hd_error (bL t i l)) -> collect n 0 tb = heads t l.
Proof.
  intros -> H. unfold heads, lbuckets.
  assert (G : forall n i, collect n i tb = flat_map (fun i => match hd_error (bL t i l) with Some x => [x] | None => [] end) (map Z.of_nat (seq (Z.to_nat i) n)) \/ i < 0).
  { induction n as [|n IH]; intros i; [left; reflexivity|]. destruct (Z_lt_le_dec i 0) as [|P]; [right; assumption|]. left.
    cbn [collect seq map flat_map]. rewrite Z2Nat.id by exact P. rewrite H. unfold opt_list at 1. f_equal.
    destruct (IH (i + 1)) as [E|]; [|lia]. rewrite E. replace (Z.to_nat (i + 1)) with (S (Z.to_nat i)) by lia. reflexivity. }
  destruct (G 128%nat 0) as [E|]; [exact E|lia].
Qed.
Lemma lhash_range n : 0 <= lhash n < 128.
Proof. unfold lhash, LHASH_TABLE_SIZE. apply Z.mod_pos_bound. lia. Qed.
Lemma heads_NoDup t l : NoDup l -> NoDup (heads t l).
Proof.
  intros ND. unfold heads. assert (NB : NoDup lbuckets).
  { unfold lbuckets. apply FinFun.Injective_map_NoDup; [intros a b; apply Nat2Z.inj|apply seq_NoDup]. }
  revert NB. generalize lbuckets. intros bs NB. induction NB as [|b bs NI NB IH]; cbn [flat_map]; [constructor|].
  destruct (hd_error (bL t b l)) as [x|] eqn:E; [|exact IH]. cbn [app]. constructor; [|exact IH].
  intros I. apply in_flat_map in I as (b' & IB & I). destruct (hd_error (bL t b' l)) as [y|] eqn:E'; [|destruct I].
  destruct I as [->|[]].
  assert (H1 : In x (bL t b l)) by (destruct (bL t b l); [discriminate|inversion E; left; reflexivity]).
  assert (H2 : In x (bL t b' l)) by (destruct (bL t b' l); [discriminate|inversion E'; left; reflexivity]).
  apply filter_In in H1 as [_ H1]. apply filter_In in H2 as [_ H2]. assert (b = b') by lia. subst b'. contradiction.
Qed.

Lemma rep_getlocal own s t c : rep own s t -> cur t = Some c ->
  rep own (SymGetLocal s c) (set_cur t (loc t) (upds (saved t) c (loc t)) (cur t) (stack t) false).
Proof.
  intros R CU.
  assert (H : forall i, lsym_table s i = hd_error (bL t i (loc t))) by (intros i; apply (lseg_head (nx s)), (r_L _ _ _ R); congruence).
  unfold SymGetLocal. remember (Z.to_nat LHASH_TABLE_SIZE) as n eqn:EN.
  pose proof (collect_heads t (loc t) (lsym_table s) n EN H) as CH. clear EN.
  destruct (get_local_all c n s _ CH (heads_NoDup t _ (r_ndL _ _ _ R))) as (K & LK & LS).
  set (s' := get_local n 0 c None s) in *. clearbody s'. clear CH.
  assert (LX : forall l hd, lseg (nx s) hd l -> lseg (nx s') hd l) by (intros l hd L; apply lseg_frame with (nx := nx s); [exact L|intros x _; apply (l_nx _ _ _ _ K)]).
  split; cbn [set_cur next names undef glob loc det saved cur stack cs dirty].
  - rewrite (l_brk _ _ _ _ K). apply (r_brk _ _ _ R).
  - apply (r_next _ _ _ R).
  - intros x X. rewrite (l_nm _ _ _ _ K). apply (r_nm _ _ _ R). exact X.
  - apply (r_bytes _ _ _ R).
  - intros x X. rewrite (l_state _ _ _ _ K). apply (r_state _ _ _ R). exact X.
  - rewrite (l_cur _ _ _ _ K). apply (r_cur _ _ _ R).
  - rewrite (l_stack _ _ _ _ K). apply (r_stack _ _ _ R).
  - rewrite (l_case _ _ _ _ K). apply (r_case _ _ _ R).
  - rewrite (l_count _ _ _ _ K). apply (r_count _ _ _ R).
  - intros i. rewrite (l_gtab _ _ _ _ K). apply LX, (r_G _ _ _ R).
  - intros C i. rewrite (l_ltab _ _ _ _ K). apply LX, (r_L _ _ _ R C).
  - intros x I. rewrite (l_scoped _ _ _ _ K). apply (r_ownG _ _ _ R x I).
  - intros x c' C I. rewrite (l_scoped _ _ _ _ K). apply (r_ownL _ _ _ R x c' C I).
  - intros x I. rewrite (l_scoped _ _ _ _ K). apply (r_ownD _ _ _ R x I).
  - apply (r_ndG _ _ _ R).
  - apply (r_ndL _ _ _ R).
  - apply (r_nds _ _ _ R).
  - apply (r_stk _ _ _ R).
  - intros q Q _. unfold upds. replace (q =? c) with true by (assert (q = c) by congruence; lia). reflexivity.
  - intros q _. unfold upds. destruct (Z.eqb_spec q c) as [->|N].
    + split; [apply (r_ndL _ _ _ R)|]. split; [|split].
      * intros x I. rewrite (l_scoped _ _ _ _ K). apply (r_ownL _ _ _ R x c CU I).
      * change (heads (set_cur t (loc t) (upds (saved t) c (loc t)) (cur t) (stack t) false) (loc t)) with (heads t (loc t)). rewrite LK. exact LS.
      * intros i. apply LX. change (lseg (nx s) (hd_error (bL t i (loc t))) (bL t i (loc t))). rewrite <- (H i). apply (r_L _ _ _ R). congruence.
    + assert (V : valid t q) by (intros [X _]; congruence).
      destruct (r_saved _ _ _ R q V) as (A & B & C & F). split; [exact A|]. split; [|split].
      * intros x I. rewrite (l_scoped _ _ _ _ K). apply (B x I).
      * rewrite (l_lab _ _ _ _ K) by exact N. apply lseg_frame with (nx := fun x => nextll (heap s x)); [exact C|].
        intros x I. apply (l_ll _ _ _ _ K). intros J. apply heads_in in I. apply heads_in in J.
        destruct (B x I) as (O & _). destruct (r_ownL _ _ _ R x c CU J) as (O' & _). congruence.
      * intros i. apply LX, F.
Qed.

(** restoring *)
Lemma set_ltab_set_ltab s a b : set_ltab (set_ltab s a) b = set_ltab s b.
Proof. reflexivity. Qed.
Lemma set_local_spec : forall hs fuel s, lseg (fun x => nextll (heap s x)) (hd_error hs) hs -> (length hs < fuel)%nat ->
  set_local fuel (hd_error hs) s = Ok (set_ltab s (fold_left (fun tb x => upd tb (lhash (nm s x)) (Some x)) hs (lsym_table s))).
Proof.
  induction hs as [|x hs IH]; intros fuel s L LT; cbn [hd_error length] in *.
  - destruct fuel; [lia|]. cbn [set_local fold_left]. destruct s. reflexivity.
  - destruct fuel as [|fuel]; [lia|]. cbn [set_local fold_left]. cbn [lseg] in L. destruct L as [_ L].
    pose proof (lseg_head _ _ _ L) as E. rewrite E. rewrite E in L. rewrite IH; [reflexivity|exact L|lia].
Qed.
Lemma restore_tab s t l i : (forall x, In x l -> nm s x = names t x) ->
  fold_left (fun tb x => upd tb (lhash (nm s x)) (Some x)) (heads t l) (fun _ => None) i = hd_error (bL t i l).
Proof.
  intros NM.
  assert (G : forall bs tb, NoDup bs ->
    fold_left (fun tb x => upd tb (lhash (nm s x)) (Some x)) (flat_map (fun i => match hd_error (bL t i l) with Some x => [x] | None => [] end) bs) tb i =
    match hd_error (bL t i l) with Some x => if in_dec Z.eq_dec i bs then Some x else tb i | None => tb i end).
  { induction bs as [|b bs IH]; intros tb ND; cbn [flat_map fold_left].
    - destruct (hd_error (bL t i l)); [|reflexivity]. destruct (in_dec Z.eq_dec i []) as [[]|]; reflexivity.
    - apply NoDup_cons_iff in ND as [NI ND]. destruct (hd_error (bL t b l)) as [y|] eqn:E; cbn [app fold_left].
      + rewrite IH by exact ND.
        assert (HB : In y (bL t b l)) by (destruct (bL t b l); [discriminate|inversion E; left; reflexivity]).
        apply filter_In in HB as [HI HB].
        assert (EB : lhash (nm s y) = b) by (rewrite NM by exact HI; lia). rewrite EB.
        destruct (hd_error (bL t i l)) as [x|] eqn:EI.
        * destruct (in_dec Z.eq_dec i bs) as [I|I]; destruct (in_dec Z.eq_dec i (b :: bs)) as [J|J]; try reflexivity.
          -- exfalso. apply J. right. exact I.
          -- destruct J as [->|J]; [|contradiction]. rewrite upd_same. congruence.
          -- apply upd_other. intros ->. apply J. left. reflexivity.
        * apply upd_other. intros ->. congruence.
      + rewrite IH by exact ND. destruct (hd_error (bL t i l)) as [x|] eqn:EI; [|reflexivity].
        destruct (in_dec Z.eq_dec i bs) as [I|I]; destruct (in_dec Z.eq_dec i (b :: bs)) as [J|J]; try reflexivity.
        * exfalso. apply J. right. exact I.
        * destruct J as [->|J]; [congruence|contradiction]. }
  unfold heads. rewrite G.
  - destruct (bL t i l) as [|x r] eqn:E; cbn [hd_error]; [reflexivity|]. destruct (in_dec Z.eq_dec i lbuckets) as [I|I]; [reflexivity|].
    exfalso. apply I. assert (H : In x (bL t i l)) by (rewrite E; left; reflexivity). apply filter_In in H as [_ H].
    pose proof (lhash_range (names t x)). unfold lbuckets. apply in_map_iff. exists (Z.to_nat i). split; [lia|]. apply in_seq. lia.
  - unfold lbuckets. apply FinFun.Injective_map_NoDup; [intros a b; apply Nat2Z.inj|apply seq_NoDup].
Qed.
Lemma heads_length t l n : 0 <= n -> NoDup l -> (forall x, In x l -> 0 <= x < n) -> (length (heads t l) <= Z.to_nat n)%nat.
Proof. intros N ND B. apply bounded_length; [exact N|apply heads_NoDup; exact ND|]. intros x I. apply B, (heads_in t), I. Qed.

Definition clean (t : spec) : Prop := forall q, valid t q.
Lemma SymSetLocal_spec own s t q : rep own s t -> clean t ->
  exists tb, (forall p st, SymSetLocal (set_proc s p st) q = Ok (set_ltab (set_proc s p st) tb)) /\ forall i, tb i = hd_error (bL t i (saved t q)).
Proof.
  intros R CL. destruct (r_saved _ _ _ R q (CL q)) as (A & B & C & F).
  exists (fold_left (fun tb x => upd tb (lhash (nm s x)) (Some x)) (heads t (saved t q)) (fun _ => None)). split.
  - intros p st. unfold SymSetLocal. cbv zeta. cbn [SymClearLocal set_ltab set_proc brk labellist].
    pose proof (lseg_head _ _ _ C) as E. rewrite E in *.
    rewrite set_local_spec; [reflexivity|exact C|].
    rewrite (r_brk _ _ _ R). pose proof (heads_length t (saved t q) (next t) (r_next _ _ _ R) A) as H.
    enough (length (heads t (saved t q)) <= Z.to_nat (next t))%nat by lia. apply H. intros x I. apply (B x I).
  - intros i. apply restore_tab. intros x I. apply (r_nm _ _ _ R). apply (B x I).
Qed.

(** another procedure becomes current *)
Lemma rep_switch own s t q st tb l dr : rep own s t -> clean t -> NoDup (q :: st) ->
  (forall i, tb i = hd_error (bL t i l)) -> (l = saved t q \/ (l = [] /\ dr = true)) ->
  rep own (set_proc (set_ltab s tb) (Some q) st) (set_cur t l (saved t) (Some q) st dr).
Proof.
  intros R CL ND TB L.
  split; cbn [set_cur next names undef glob loc det saved cur stack cs dirty set_proc set_ltab brk heap gsym_table lsym_table labellist CurrProc ProcStack case_sensitive SymCount];
    try (first [apply (r_brk _ _ _ R)|apply (r_next _ _ _ R)|apply (r_nm _ _ _ R)|apply (r_bytes _ _ _ R)|apply (r_state _ _ _ R)|apply (r_case _ _ _ R)|
    apply (r_count _ _ _ R)|apply (r_G _ _ _ R)|apply (r_ownG _ _ _ R)|apply (r_ownD _ _ _ R)|apply (r_ndG _ _ _ R)|reflexivity|exact ND|discriminate]).
  - intros _ i. rewrite TB. destruct L as [->|[-> _]]; [|reflexivity]. apply (r_saved _ _ _ R q (CL q)).
  - intros x c C I. assert (c = q) by congruence. subst c. destruct L as [->|[-> _]]; [|destruct I]. apply (r_saved _ _ _ R q (CL q)). exact I.
  - destruct L as [->|[-> _]]; [|constructor]. apply (r_saved _ _ _ R q (CL q)).
  - intros q' Q D. destruct L as [->|[_ X]]; [congruence|congruence].
  - intros q' _. apply (r_saved _ _ _ R q' (CL q')).
Qed.
Lemma rep_none own s t : rep own s t -> clean t -> rep own (set_proc s None []) (set_cur t [] (saved t) None [] false).
Proof.
  intros R CL.
  split; cbn [set_cur next names undef glob loc det saved cur stack cs dirty set_proc set_ltab brk heap gsym_table lsym_table labellist CurrProc ProcStack case_sensitive SymCount];
    try (first [apply (r_brk _ _ _ R)|apply (r_next _ _ _ R)|apply (r_nm _ _ _ R)|apply (r_bytes _ _ _ R)|apply (r_state _ _ _ R)|apply (r_case _ _ _ R)|
    apply (r_count _ _ _ R)|apply (r_G _ _ _ R)|apply (r_ownG _ _ _ R)|apply (r_ownD _ _ _ R)|apply (r_ndG _ _ _ R)|reflexivity|discriminate|exact (NoDup_nil _)]).
  - congruence.
  - intros q' _. apply (r_saved _ _ _ R q' (CL q')).
Qed.
Lemma rep_case own s t b : rep own s t -> rep own (SymSetCmpFunc s b)
  {| next := next t; names := names t; undef := undef t; glob := glob t; loc := loc t; det := det t; saved := saved t;
     cur := cur t; stack := stack t; cs := b; dirty := dirty t |}.
Proof. intros []. split; assumption || reflexivity. Qed.

(** ** One operation *)
Lemma is_cur_none t c : cur t = Some c -> cur t <> None.
Proof. congruence. Qed.
Theorem op_sim o own s t : rep own s t -> allowed o t ->
  exists own' s', exec o s = Ok (s', snd (step o t)) /\ rep own' s' (fst (step o t)).
Proof.
  intros R AL. destruct o as [n|n|n|n|n|n v|n|p|p n|p v|pass1 q|pass1|b]; cbn [exec step allowed] in *.
  - (* Find *)
    destruct AL as [B L]. destruct (SymFind_spec own s t n R B) as (s' & E & R' & _). eauto.
  - (* FindLocal *)
    destruct AL as [B L]. destruct (SymFindLocal_spec own s t n R B) as (s' & E & R'). eauto.
  - (* Lookup *)
    pose proof AL as [B L]. destruct (SymFind_spec own s t n R B) as (s1 & E & R1 & LP & GP). unfold SymLookup. rewrite E. cbn [bindr].
    destruct (visible t n) as [p|] eqn:V; cbn [fst snd]; [eauto|].
    destruct (visible_none t n V) as [FL FG]. apply (new_global own s1 t n R1 AL). apply gplace_end; [apply GP; exact FL|exact FG].
  - (* LookupLocal *)
    destruct AL as [G CU]. pose proof G as [B L]. destruct (cur t) as [c|] eqn:C; [|congruence].
    destruct (SymFind_spec own s t n R B) as (s1 & E & R1 & LP & GP). unfold SymLookupLocal. rewrite E. cbn [bindr].
    specialize (LP ltac:(congruence)).
    unfold visible. destruct (find_loc t n) as [p|] eqn:FL.
    + assert (I : In p (loc t)) by (apply (find_loc_in t n p c C FL)).
      destruct (r_ownL _ _ _ R1 p c C I) as (_ & X & SC). rewrite (r_state _ _ _ R1 p X).
      replace (undef t p && negb (scoped (heap s1 p))) with false by (destruct SC as [->| ->]; rewrite ?andb_false_r; reflexivity).
      cbn [fst snd]. eauto.
    + specialize (GP eq_refl).
      assert (FL' : find (is t n) (loc t) = None) by (unfold find_loc in FL; rewrite C in FL; exact FL).
      pose proof (lplace_end s1 t n LP FL') as LE.
      destruct (find (is t n) (glob t)) as [p|] eqn:FG.
      * apply find_some in FG as FG'. destruct FG' as [I SN]. destruct (r_ownG _ _ _ R1 p I) as (_ & X & SC).
        rewrite (r_state _ _ _ R1 p X), SC. cbn [negb]. rewrite andb_true_r. destruct (undef t p) eqn:U; cbn [fst snd]; [|eauto].
        assert (HE : ghash (names t p) = ghash n).
        { unfold ghash. rewrite (same_hash (cs t) n (names t p) B (r_bytes _ _ _ R1 p X) SN). reflexivity. }
        assert (HEL : lhash (names t p) = lhash n).
        { unfold lhash. rewrite (same_hash (cs t) n (names t p) B (r_bytes _ _ _ R1 p X) SN). reflexivity. }
        destruct GP as (pre & suf & BE & GS & HD). rewrite FG in HD. destruct suf as [|p' post]; [discriminate|]. cbn [hd_error] in HD. inversion HD as [HD']. subst p'.
        destruct (rep_detachG own s1 t p pre post R1 I) as (s2 & E2 & R2 & LS2).
        { rewrite HE. exact BE. }
        { rewrite HE. exact GS. }
        rewrite E2. cbn [bindr].
        set (T2 := set_scopes t (without p (glob t)) (loc t) (p :: det t) (dirty t)) in *.
        set (s3 := set_count s2 (SymCount s2 - 1)) in *.
        destruct (rep_attachL _ s3 T2
          (set_heap (set_heap s3 (upd (heap s3) p (with_scoped (heap s3 p) true)))
             (upd (heap (set_heap s3 (upd (heap s3) p (with_scoped (heap s3 p) true)))) p
                (with_next (heap (set_heap s3 (upd (heap s3) p (with_scoped (heap s3 p) true))) p) None))) T2 p c R2) as (s4 & E4 & R4).
        -- exact C.
        -- left. reflexivity.
        -- apply differs_heap2.
        -- unfold nx. cbn [set_heap heap]. rewrite upd_same. reflexivity.
        -- apply (r_bytes _ _ _ R1 p X).
        -- unfold nm. cbn [set_heap heap]. rewrite !upd_same. cbn [with_next with_scoped s_name]. apply (r_nm _ _ _ R2 p X).
        -- cbn [set_heap heap]. rewrite !upd_same. cbn [with_next with_scoped s_state]. apply (r_state _ _ _ R2 p X).
        -- left. cbn [set_heap heap]. rewrite !upd_same. reflexivity.
        -- reflexivity.
        -- reflexivity.
        -- reflexivity.
        -- reflexivity.
        -- reflexivity.
        -- reflexivity.
        -- reflexivity.
        -- reflexivity.
        -- reflexivity.
        -- reflexivity.
        -- change (lsym s3) with (lsym s2). rewrite LS2, LE. change (names T2 p) with (names t p). rewrite HEL. reflexivity.
        -- rewrite E4. cbn [bindr]. eexists _, _. split; [reflexivity|].
           change (det T2) with (p :: det t) in R4.
           assert (W : without p (p :: det t) = det t).
           { unfold without. cbn [filter]. rewrite Z.eqb_refl. cbn [negb]. apply without_notin. intros J.
             destruct (r_ownD _ _ _ R1 p J) as (O & _). destruct (r_ownG _ _ _ R1 p I) as (O' & _). congruence. }
           rewrite W in R4. exact R4.
      * cbn [fst snd]. apply (new_local own s1 t n c (fun y => with_scoped y true) true R1 G C LE); auto.
        intros y Y. cbn [with_scoped s_state]. rewrite Y. reflexivity.
  - (* Create *)
    pose proof AL as [B L]. destruct (SymFind_spec own s t n R B) as (s1 & E & R1 & LP & GP). unfold SymCreate. rewrite E. cbn [bindr].
    destruct (visible t n) as [p|] eqn:V; cbn [fst snd]; [eauto|].
    destruct (visible_none t n V) as [FL FG]. apply (new_global own s1 t n R1 AL). apply gplace_end; [apply GP; exact FL|exact FG].
  - (* LCreate *)
    destruct AL as (G & CU & NV & UD). pose proof G as [B L]. destruct (cur t) as [c|] eqn:C; [|congruence].
    destruct (SymFind_spec own s t n R B) as (s1 & E & R1 & LP & GP). unfold SymLCreate. rewrite E. cbn [bindr].
    specialize (LP ltac:(congruence)).
    assert (NL : find_loc t n = None -> exists own' s',
      (let '(s0, p) := SymAlloc s1 n in let s2 := set_heap s0 (upd (heap s0) p (with_state (heap s0 p) v)) in
       bindr (store s2 (lsym s2) (Some p)) (fun s => Ok (s, Some p))) = Ok (s', Some (next t)) /\
      rep own' s' (set_scopes (add_name t n false) (glob t) (loc t ++ [next t]) (det t) true)).
    { intros FL. assert (FL' : find (is t n) (loc t) = None) by (unfold find_loc in FL; rewrite C in FL; exact FL).
      apply (new_local own s1 t n c (fun y => with_state y v) false R1 G C (lplace_end s1 t n LP FL')); auto.
      intros y _. cbn [with_state s_state]. unfold SYM_UNDEFINED. lia. }
    destruct (visible t n) as [p|] eqn:V; cbn [fst snd].
    + rewrite (r_state _ _ _ R1 p (visible_lt own s1 t n p R1 V)). destruct (undef t p) eqn:U; cbn [negb fst snd]; [|eauto].
      apply NL. destruct (visible_cases t n p V) as [F|[F _]]; [|exact F]. rewrite F in UD. congruence.
    + apply NL. apply (visible_none t n V).
  - (* New *)
    pose proof (rep_new own s t n R AL) as N. destruct (SymAlloc s n) as [s1 p]. cbv zeta in N. destruct N as (-> & R1 & _).
    cbn [fst snd]. eauto.
  - (* AddGlobal *)
    destruct (r_ownD _ _ _ R p AL) as (_ & X & SC). unfold SymAddGlobal.
    change (s_name (heap s p)) with (nm s p). rewrite (r_nm _ _ _ R p X).
    destruct (SymFind_spec own s t (names t p) R (r_bytes _ _ _ R p X)) as (s1 & E & R1 & LP & GP). rewrite E. cbn [bindr].
    destruct (visible t (names t p)) as [q|] eqn:V; cbn [fst snd]; [eauto|].
    destruct (visible_none t _ V) as [FL FG].
    set (s2 := set_heap s1 (upd (heap s1) p (with_next (heap s1 p) None))).
    assert (R2 : rep own s2 t).
    { apply (rep_differs own s1 s2 t p R1 AL); [apply differs_heap| | |]; unfold nm; cbn [s2 set_heap heap]; rewrite upd_same; reflexivity. }
    destruct (rep_attachG own s2 t p R2 AL) as (s3 & E3 & R3 & _).
    + unfold nx. cbn [s2 set_heap heap]. rewrite upd_same. reflexivity.
    + change (gsym s2) with (gsym s1). apply gplace_end; [apply GP; exact FL|exact FG].
    + rewrite E3. cbn [bindr]. eauto.
  - (* AddLocal *)
    destruct AL as (G & CU & D & UP & UD). pose proof G as [B L]. destruct (cur t) as [c|] eqn:C; [|congruence].
    destruct (SymFind_spec own s t n R B) as (s1 & E & R1 & LP & GP). unfold SymAddLocal. rewrite E. cbn [bindr].
    specialize (LP ltac:(congruence)). destruct (r_ownD _ _ _ R1 p D) as (_ & X & SC).
    set (t1 := {| next := next t; names := fun x => if x =? p then n else names t x; undef := undef t;
                     glob := glob t; loc := loc t; det := det t; saved := saved t; cur := Some c; stack := stack t; cs := cs t; dirty := dirty t |}).
    set (s2 := set_heap s1 (upd (heap s1) p {| s_name := n; s_state := s_state (heap s1 p); scoped := scoped (heap s1 p);
                                            nextitem := None; nextll := nextll (heap s1 p) |})).
    assert (NP : names t1 p = n) by (cbn [t1 names]; rewrite Z.eqb_refl; reflexivity).
    assert (NL : find_loc t n = None -> exists own' s', bindr (store s2 (lsym s2) (Some p)) (fun s => Ok (s, Some p)) = Ok (s', Some p) /\
      rep own' s' (set_scopes t1 (glob t) (loc t ++ [p]) (without p (det t)) true)).
    { intros FL. assert (FL' : find (is t n) (loc t) = None) by (unfold find_loc in FL; rewrite C in FL; exact FL).
      destruct (rep_attachL own s1 t s2 t1 p c R1 C D) as (s3 & E3 & R3).
      - apply differs_heap.
      - unfold nx. cbn [s2 set_heap heap]. rewrite upd_same. reflexivity.
      - rewrite NP. exact B.
      - unfold nm. cbn [s2 set_heap heap]. rewrite upd_same, NP. reflexivity.
      - cbn [s2 set_heap heap]. rewrite upd_same. apply (r_state _ _ _ R1 p X).
      - right. exact UP.
      - intros x N. cbn [t1 names]. replace (x =? p) with false by lia. reflexivity.
      - reflexivity.
      - reflexivity.
      - reflexivity.
      - reflexivity.
      - reflexivity.
      - reflexivity.
      - symmetry. exact C.
      - reflexivity.
      - reflexivity.
      - rewrite NP. apply (lplace_end s1 t n LP FL').
      - rewrite E3. cbn [bindr]. eauto. }
    destruct (visible t n) as [q|] eqn:V; cbn [fst snd].
    + rewrite (r_state _ _ _ R1 q (visible_lt own s1 t n q R1 V)). destruct (undef t q) eqn:U; cbn [negb fst snd]; [|eauto].
      apply NL. destruct (visible_cases t n q V) as [F|[F _]]; [|exact F]. rewrite F in UD. congruence.
    + apply NL. apply (visible_none t n V).
  - (* Define *)
    destruct AL as [X NV]. eexists own, _. split; [reflexivity|]. apply rep_define; assumption.
  - (* Enter *)
    destruct AL as (NC & NS & DR). unfold enter_proc. rewrite (r_cur _ _ _ R).
    set (sv := match cur t with Some c => if pass1 then upds (saved t) c (loc t) else saved t | None => saved t end).
    set (st := match cur t with Some c => c :: stack t | None => stack t end).
    assert (exists s1 t1, rep own s1 t1 /\ clean t1 /\ saved t1 = sv /\ (forall l dr, set_cur t1 l sv (Some q) st dr = set_cur t l sv (Some q) st dr) /\
      match cur t with Some q0 => set_proc (if pass1 then SymGetLocal s q0 else s) (CurrProc (if pass1 then SymGetLocal s q0 else s)) (q0 :: ProcStack (if pass1 then SymGetLocal s q0 else s)) | None => s end
      = set_proc s1 (CurrProc s1) st) as (s1 & t1 & R1 & CL1 & SV1 & SC1 & E1).
    { destruct (cur t) as [c|] eqn:C.
      - destruct pass1.
        + pose proof (rep_getlocal own s t c R C) as R1. eexists _, _. split; [exact R1|]. split; [intros x [_ Y]; discriminate|]. split; [reflexivity|].
          split; [reflexivity|]. unfold st. rewrite (r_stack _ _ _ R1). reflexivity.
        + exists s, t. split; [exact R|]. split; [|split; [reflexivity|split; [reflexivity|unfold st; rewrite (r_stack _ _ _ R); reflexivity]]].
          intros x [_ Y]. rewrite DR in Y; congruence.
      - exists s, t. split; [exact R|]. split; [intros x [Y _]; congruence|]. split; [reflexivity|]. split; [reflexivity|].
        unfold st. rewrite <- (r_stack _ _ _ R). destruct s. reflexivity. }
    cbv zeta. rewrite E1.
    assert (ND : NoDup (q :: st)).
    { constructor; [|apply (r_nds _ _ _ R)]. unfold st. destruct (cur t) as [c|]; [|exact NS]. intros [->|I]; [congruence|contradiction]. }
    cbn [fst snd]. destruct pass1.
    + cbn [bindr]. eexists own, _. split; [reflexivity|]. rewrite <- SC1, <- SV1.
      apply (rep_switch own s1 t1 q st (fun _ => None) [] true R1 CL1 ND); [reflexivity|right; auto].
    + destruct (SymSetLocal_spec own s1 t1 q R1 CL1) as (tb & SE & TB). rewrite SE. cbn [bindr].
      eexists own, _. split; [reflexivity|]. rewrite <- SC1, <- SV1.
      apply (rep_switch own s1 t1 q st tb (saved t1 q) false R1 CL1 ND); [exact TB|left; reflexivity].
  - (* Leave *)
    destruct AL as (NC & DR). destruct (cur t) as [c|] eqn:C; [|congruence]. unfold leave_proc. rewrite (r_cur _ _ _ R), C.
    set (sv := if pass1 then upds (saved t) c (loc t) else saved t).
    assert (exists t1, rep own (if pass1 then SymGetLocal s c else s) t1 /\ clean t1 /\ saved t1 = sv /\ stack t1 = stack t /\ cur t1 = cur t /\
      (forall l p st dr, set_cur t1 l sv p st dr = set_cur t l sv p st dr)) as (t1 & R1 & CL1 & SV1 & ST1 & CU1 & SC1).
    { destruct pass1.
      - pose proof (rep_getlocal own s t c R C) as R1. eexists. split; [exact R1|]. split; [intros x [_ Y]; discriminate|]. repeat split; reflexivity.
      - exists t. split; [exact R|]. split; [intros x [_ Y]; rewrite DR in Y; congruence|]. repeat split; reflexivity. }
    cbv zeta. set (s1 := if pass1 then SymGetLocal s c else s) in *. rewrite (r_stack _ _ _ R1), ST1.
    destruct (stack t) as [|q st] eqn:ST; cbn [fst snd].
    + cbn [bindr]. eexists own, _. split; [reflexivity|]. rewrite <- SC1, <- SV1. apply rep_none; assumption.
    + destruct (SymSetLocal_spec own s1 t1 q R1 CL1) as (tb & SE & TB). rewrite SE. cbn [bindr].
      eexists own, _. split; [reflexivity|]. rewrite <- SC1, <- SV1.
      apply (rep_switch own s1 t1 q st tb (saved t1 q) false R1 CL1); [|exact TB|left; reflexivity].
      pose proof (r_nds _ _ _ R1) as N. rewrite CU1, ST1, C in N. apply NoDup_cons_iff in N. tauto.
  - (* SetCase *)
    eexists own, _. split; [reflexivity|]. apply rep_case. exact R.
Qed.

(** ** Whole histories *)
Lemma heads_nil t : heads t [] = [].
Proof. unfold heads. generalize lbuckets. induction l as [|b l IH]; [reflexivity|exact IH]. Qed.
Lemma rep_start b : rep (fun _ => OD) (start b) (empty b).
Proof.
  split; cbn [start empty next names undef glob loc det saved cur stack cs dirty brk heap gsym_table lsym_table labellist CurrProc ProcStack case_sensitive SymCount];
    try reflexivity; try lia; try (intros; lia).
  - intros x [].
  - intros x c _ [].
  - intros x [].
  - constructor.
  - constructor.
  - constructor.
  - intros q _. split; [constructor|]. split; [intros x []|]. split; [rewrite heads_nil; reflexivity|]. intros i. reflexivity.
Qed.
Theorem history l : forall own s t, rep own s t -> all_allowed l t ->
  exists own' s', run_model l s = Ok (s', snd (run_spec l t)) /\ rep own' s' (fst (run_spec l t)).
Proof.
  induction l as [|o l IH]; intros own s t R AL; cbn [run_model run_spec all_allowed] in *; [eauto|].
  destruct AL as [A AL]. destruct (op_sim o own s t R A) as (own1 & s1 & E & R1). rewrite E. cbn [bindr].
  destruct (step o t) as [t1 r]. cbn [fst snd] in *.
  destruct (IH own1 s1 t1 R1 AL) as (own2 & s2 & E2 & R2). rewrite E2. cbn [bindr].
  destruct (run_spec l t1) as [t2 rs]. cbn [fst snd] in *. eauto.
Qed.

(** ** Names that differ in case *)
Lemma run_spec_app a : forall b t, run_spec (a ++ b) t =
  (fst (run_spec b (fst (run_spec a t))), snd (run_spec a t) ++ snd (run_spec b (fst (run_spec a t)))).
Proof.
  induction a as [|o a IH]; intros b t; cbn [app run_spec fst snd]; [destruct (run_spec b t); reflexivity|].
  destruct (step o t) as [t1 r]. rewrite IH. destruct (run_spec a t1) as [t2 rs]. reflexivity.
Qed.
Lemma all_allowed_app a : forall b t, all_allowed a t -> all_allowed b (fst (run_spec a t)) -> all_allowed (a ++ b) t.
Proof.
  induction a as [|o a IH]; intros b t A B; cbn [app run_spec all_allowed fst] in *; [exact B|].
  destruct A as [A1 A2]. split; [exact A1|]. destruct (step o t) as [t1 r]. cbn [fst] in *. apply IH; [exact A2|].
  destruct (run_spec a t1). exact B.
Qed.
Lemma same_trans t n n' : same (cs t) n n' = true -> forall x, is t n' x = is t n x.
Proof.
  intros H x. unfold is, same in *. destruct (cs t).
  - destruct (list_eq_dec Z.eq_dec n n') as [->|]; [reflexivity|discriminate].
  - destruct (list_eq_dec Z.eq_dec (map fold_case n) (map fold_case n')) as [E|]; [|discriminate]. rewrite E. reflexivity.
Qed.
Lemma visible_same t n n' : same (cs t) n n' = true -> visible t n' = visible t n.
Proof.
  intros H. pose proof (same_trans t n n' H) as S1. unfold visible, find_loc.
  assert (F : forall l, find (is t n') l = find (is t n) l) by (induction l as [|x l IH]; [reflexivity|cbn [find]; rewrite S1, IH; reflexivity]).
  rewrite !F. reflexivity.
Qed.
Lemma find_snoc {A} (f : A -> bool) l x : find f l = None -> find f (l ++ [x]) = if f x then Some x else None.
Proof. induction l as [|y l IH]; intros H; cbn [find app] in *; [reflexivity|]. destruct (f y); [discriminate|auto]. Qed.
Lemma lookup_visible own s t n : rep own s t -> visible (fst (step (Lookup n) t)) n = snd (step (Lookup n) t).
Proof.
  intros R. cbn [step]. destruct (visible t n) as [p|] eqn:V; cbn [fst snd]; [exact V|].
  destruct (visible_none t n V) as [FL FG].
  set (t1 := set_scopes _ _ _ _ _).
  assert (IS : forall x, x <> next t -> is t1 n x = is t n x).
  { intros x N. unfold is. cbn [t1 set_scopes add_name names cs]. replace (x =? next t) with false by lia. reflexivity. }
  assert (FE : forall l, (forall x, In x l -> x <> next t) -> find (is t1 n) l = find (is t n) l).
  { induction l as [|x l IH]; intros H; [reflexivity|]. cbn [find]. rewrite IS, IH; [reflexivity|intros y I; apply H; right; exact I|apply H; left; reflexivity]. }
  unfold visible, find_loc. cbn [t1 set_scopes add_name cur loc glob]. fold t1.
  assert (G : find (is t1 n) (glob t ++ [next t]) = Some (next t)).
  { rewrite find_snoc.
    - assert (E : is t1 n (next t) = true); [|rewrite E; reflexivity].
      unfold is. cbn [t1 set_scopes add_name names cs]. rewrite Z.eqb_refl. unfold same.
      destruct (cs t); destruct list_eq_dec; congruence.
    - rewrite FE; [exact FG|]. intros x I. destruct (r_ownG _ _ _ R x I) as (_ & B & _). lia. }
  rewrite G. unfold find_loc in FL. destruct (cur t) as [c|] eqn:C; [|reflexivity].
  rewrite FE; [rewrite FL; reflexivity|]. intros x I. destruct (r_ownL _ _ _ R x c C I) as (_ & B & _). lia.
Qed.
Theorem history_case l b b' n n' : all_allowed l (empty b) -> good_name n -> good_name n' -> same b' n n' = true ->
  exists s rs r, run_model (l ++ [SetCase b'; Lookup n; Find n']) (start b) = Ok (s, rs ++ [None; Some r; Some r]).
Proof.
  intros AL G G' SM.
  destruct (history l _ _ _ (rep_start b) AL) as (own & s & E & R).
  assert (AL' : all_allowed (l ++ [SetCase b'; Lookup n; Find n']) (empty b)).
  { apply all_allowed_app; [exact AL|]. cbn [all_allowed allowed]. auto. }
  destruct (history _ _ _ _ (rep_start b) AL') as (own' & s' & E' & R'). rewrite E', run_spec_app. cbn [snd].
  set (t := fst (run_spec l (empty b))) in *. cbn [run_spec].
  pose proof (rep_case own s t b' R) as RC.
  change (step (SetCase b') t) with (fst (step (SetCase b') t), @None Z). unfold step at 1. cbn [fst].
  match type of RC with rep _ _ ?u => set (t1 := u) in * end.
  assert (CS : cs t1 = b') by reflexivity. clearbody t1.
  pose proof (lookup_visible own _ t1 n RC) as LV.
  assert (exists p, snd (step (Lookup n) t1) = Some p) as (p & SP).
  { cbn [step]. destruct (visible t1 n); cbn [snd]; eauto. }
  assert (CS2 : cs (fst (step (Lookup n) t1)) = b') by (cbn [step]; destruct (visible t1 n); cbn [fst set_scopes add_name cs]; exact CS).
  fold (step (Lookup n)) in *. destruct (step (Lookup n) t1) as [t2 r2]. cbn [fst snd] in *. rewrite SP in LV. rewrite ?SP.
  cbn [step snd]. eexists _, _, p.
  assert (V : visible t2 n' = Some p) by (rewrite <- LV; apply visible_same; rewrite CS2; exact SM).
  rewrite V. reflexivity.
Qed.

(** ** Deciding [allowed] *)
Definition good_nameb (n : list Z) : bool := forallb (fun c => (0 <=? c) && (c <? 256)) n && (length n <=? 247)%nat.
Lemma good_nameb_ok n : good_nameb n = true -> good_name n.
Proof.
  unfold good_nameb. intros H. apply andb_true_iff in H as [B L]. split; [|apply Nat.leb_le; exact L].
  apply Forall_forall. intros x I. rewrite forallb_forall in B. specialize (B x I). unfold is_byte. lia.
Qed.
Definition inb (x : Z) (l : list Z) : bool := existsb (Z.eqb x) l.
Lemma inb_ok x l : inb x l = true <-> In x l.
Proof.
  unfold inb. rewrite existsb_exists. split.
  - intros (y & I & E). apply Z.eqb_eq in E. subst y. exact I.
  - intros I. exists x. split; [exact I|apply Z.eqb_refl].
Qed.
Definition has {A} (o : option A) : bool := match o with Some _ => true | None => false end.
Lemma has_ok {A} (o : option A) : has o = true -> o <> None.
Proof. destruct o; [discriminate|intros X; discriminate X]. Qed.
Definition defined_local (t : spec) (n : list Z) : bool := match find_loc t n with Some p => negb (undef t p) | None => true end.
Lemma defined_local_ok t n : defined_local t n = true -> match find_loc t n with Some p => undef t p = false | None => True end.
Proof. unfold defined_local. destruct (find_loc t n) as [p|]; [|auto]. destruct (undef t p); [discriminate|reflexivity]. Qed.
Definition allowedb (o : op) (t : spec) : bool :=
  match o with
  | Find n | FindLocal n | Lookup n | Create n | New n => good_nameb n
  | LookupLocal n => good_nameb n && has (cur t)
  | LCreate n state => good_nameb n && has (cur t) && negb (state =? 0) && defined_local t n
  | AddGlobal p => inb p (det t)
  | AddLocal p n => good_nameb n && has (cur t) && inb p (det t) && negb (undef t p) && defined_local t n
  | Define p state => (0 <=? p) && (p <? next t) && negb (state =? 0)
  | Enter pass1 q => negb (match cur t with Some c => c =? q | None => false end) && negb (inb q (stack t)) && (pass1 || negb (has (cur t)) || negb (dirty t))
  | Leave pass1 => has (cur t) && (pass1 || negb (dirty t))
  | SetCase _ => true
  end.
Lemma allowedb_ok o t : allowedb o t = true -> allowed o t.
Proof.
  destruct o as [n|n|n|n|n|n v|n|p|p n|p v|pass1 q|pass1|b]; cbn [allowedb allowed]; intros H; try (apply good_nameb_ok; exact H); try exact I;
    repeat match goal with X : _ && _ = true |- _ => apply andb_true_iff in X as [? X] end.
  - split; [apply good_nameb_ok|apply has_ok]; assumption.
  - repeat match goal with X : _ && _ = true |- _ => apply andb_true_iff in X as [? X] end.
    split; [apply good_nameb_ok; assumption|]. split; [apply has_ok; assumption|]. split; [lia|apply defined_local_ok; assumption].
  - apply inb_ok. exact H.
  - repeat match goal with X : _ && _ = true |- _ => apply andb_true_iff in X as [? X] end.
    split; [apply good_nameb_ok; assumption|]. split; [apply has_ok; assumption|]. split; [apply inb_ok; assumption|].
    split; [destruct (undef t p); [discriminate|reflexivity]|apply defined_local_ok; assumption].
  - lia.
  - repeat match goal with X : _ && _ = true |- _ => apply andb_true_iff in X as [? X] end.
    split; [|split].
    + destruct (cur t) as [c|]; [|discriminate]. intros E. inversion E as [E1]. subst c. rewrite Z.eqb_refl in *. discriminate.
    + intros I. apply inb_ok in I. rewrite I in *. discriminate.
    + intros -> C. destruct (cur t); [|congruence]. cbn [has negb orb] in H. destruct (dirty t); [discriminate|reflexivity].
  - split; [apply has_ok; assumption|]. intros ->. destruct (dirty t); [discriminate|reflexivity].
Qed.
Fixpoint all_allowedb (l : list op) (t : spec) : bool :=
  match l with [] => true | o :: l => allowedb o t && all_allowedb l (fst (step o t)) end.
Lemma all_allowedb_ok l : forall t, all_allowedb l t = true -> all_allowed l t.
Proof.
  induction l as [|o l IH]; intros t H; cbn [all_allowedb all_allowed] in *; [exact I|].
  apply andb_true_iff in H as [A B]. split; [apply allowedb_ok; exact A|apply IH; exact B].
Qed.
