From Verif Require Import Base Context_Model Context_Spec.
From Coq Require Import String Ascii List.

(** ** The model as a machine with one stack per kind *)
Definition ikind (i : item) : kind :=
  match i with
  | C_assumes _ _ _ => K_assumes | C_radix _ => K_radix | C_alignment _ _ => K_alignment
  | C_listing _ _ _ _ _ => K_listing | C_cpu _ _ => K_cpu
  end.
(** what can be seen of each kind of state: for the assumptions the two
    tables and, for each general register, the type it points to *)
Definition observe (s : cst) (k : kind) : item :=
  match k with
  | K_assumes => C_assumes (SegAssumeTable s) (StdAssumeTable s)
      (map (fun a => match symbol a with
                     | Some p => let y := syms s p in
                         Some {| i_type := t_type y; i_target_type := t_target_type y; i_mem_type := t_mem_type y;
                                 i_ptr_memtype := t_ptr_memtype y; i_is_ptr := t_is_ptr y |}
                     | None => None
                     end) (StdAssumeTable s))
  | K_radix => C_radix (radix s)
  | K_listing => C_listing (list_macro s) (m_list s) (cref s) (listif s) (list_generated_code s)
  | K_cpu => C_cpu (cpu s) (curr_cpu s)
  | K_alignment => C_alignment (fieldalign s) (procalign s)
  end.
Definition of_kind (k : kind) (st : list item) : list item := filter (fun i => kind_eqb (ikind i) k) st.
Definition abs (s : cst) : machine item :=
  {| cur := observe s; saved := fun k => of_kind k (ContextStack s) |}.

(** items on the stack were made by a push *)
Definition item_ok (i : item) : Prop :=
  match i with
  | C_assumes _ std c => exists h, c = map (get_typeinfo h) std
  | _ => True
  end.
Definition stack_ok (s : cst) : Prop := Forall item_ok (ContextStack s).

Lemma kind_eqb_spec a b : reflect (a = b) (kind_eqb a b).
Proof. destruct a, b; constructor; congruence. Qed.

(** ** Types as sets of kinds *)
Definition kt (k : kind) : Z :=
  match k with
  | K_assumes => CONT_ASSUMES | K_radix => CONT_RADIX | K_listing => CONT_LISTING | K_cpu => CONT_CPU | K_alignment => CONT_ALIGNMENT
  end.
Definition tsel (t : Z) (k : kind) : bool := negb (Z.land (kt k) t =? 0).
Definition types : list Z := map Z.of_nat (seq 0 32).
Definition kinds := [K_assumes; K_radix; K_listing; K_cpu; K_alignment].
Lemma in_types t : 0 <= t < 32 -> In t types.
Proof. intros H. unfold types. apply in_map_iff. exists (Z.to_nat t). split; [lia|]. apply in_seq. lia. Qed.
Lemma in_kinds k : In k kinds.
Proof. destruct k; cbn; auto 10. Qed.
Lemma itype_kt i : itype i = kt (ikind i).
Proof. destruct i; reflexivity. Qed.

Lemma tsel_facts t : 0 <= t < 32 ->
  (t =? 0) = forallb (fun k => negb (tsel t k)) kinds /\
  (forall k, 0 <= Z.land t (Z.lnot (kt k)) < 32) /\
  (forall k k', tsel (Z.land t (Z.lnot (kt k))) k' = tsel t k' && negb (kind_eqb k k')).
Proof.
  intros H. pose proof (in_types t H) as I.
  assert (C : forallb (fun t =>
     Bool.eqb (t =? 0) (forallb (fun k => negb (tsel t k)) kinds) &&
     forallb (fun k => (0 <=? Z.land t (Z.lnot (kt k))) && (Z.land t (Z.lnot (kt k)) <? 32) &&
        forallb (fun k' => Bool.eqb (tsel (Z.land t (Z.lnot (kt k))) k') (tsel t k' && negb (kind_eqb k k'))) kinds) kinds) types = true)
    by (vm_compute; reflexivity).
  rewrite forallb_forall in C. specialize (C t I). apply andb_prop in C as [C1 C2].
  rewrite forallb_forall in C2. split; [apply eqb_prop; exact C1|]. split.
  - intros k. specialize (C2 k (in_kinds k)). apply andb_prop in C2 as [C2 _]. lia.
  - intros k k'. specialize (C2 k (in_kinds k)). apply andb_prop in C2 as [_ C2].
    rewrite forallb_forall in C2. apply eqb_prop. apply C2. apply in_kinds.
Qed.
Lemma tsel_zero k : tsel 0 k = false.
Proof. destruct k; reflexivity. Qed.
Lemma tsel_none t : 0 <= t < 32 -> (t = 0 <-> forall k, tsel t k = false).
Proof.
  intros H. destruct (tsel_facts t H) as (A & _ & _). split.
  - intros ->. apply tsel_zero.
  - intros N. apply Z.eqb_eq. rewrite A. apply forallb_forall. intros k _. rewrite N. reflexivity.
Qed.

(** ** Restoring the assumptions *)
Lemma set_typeinfos_spec h0 : forall std (h : Z -> type_sym), exists h',
  set_typeinfos h std (map (get_typeinfo h0) std) = Ok h' /\
  forall q, (t_type (h' q), t_target_type (h' q), t_mem_type (h' q), t_ptr_memtype (h' q), t_is_ptr (h' q)) =
    if existsb (fun a => match symbol a with Some p => p =? q | None => false end) std
    then (t_type (h0 q), t_target_type (h0 q), t_mem_type (h0 q), t_ptr_memtype (h0 q), t_is_ptr (h0 q))
    else (t_type (h q), t_target_type (h q), t_mem_type (h q), t_ptr_memtype (h q), t_is_ptr (h q)).
Proof.
  induction std as [|a std IH]; intros h; cbn [set_typeinfos map existsb].
  - exists h. split; reflexivity.
  - unfold get_typeinfo at 1. destruct (symbol a) as [p|] eqn:E.
    + match goal with |- context [set_typeinfo h p ?t] => destruct (IH (set_typeinfo h p t)) as (h' & E1 & E2) end. exists h'. split; [exact E1|]. intros q. rewrite E2.
      destruct (existsb _ std); [destruct (p =? q); reflexivity|]. unfold set_typeinfo.
      destruct (Z.eqb_spec q p) as [->|N]; [rewrite Z.eqb_refl; reflexivity|].
      replace (p =? q) with false by lia. reflexivity.
    + destruct (IH h) as (h' & E1 & E2). exists h'. split; [exact E1|]. intros q. apply E2.
Qed.

Lemma restore_spec s i : item_ok i -> exists s', restore_item s i = Ok s' /\
  ContextStack s' = ContextStack s /\
  observe s' (ikind i) = i /\
  (forall k, k <> ikind i -> observe s' k = observe s k) /\
  sym_Cpu s' = (if kind_eqb (ikind i) K_cpu then option_map (fun _ => cpu s') (sym_Cpu s) else sym_Cpu s).
Proof.
  intros O. destruct i; cbn [restore_item ikind].
  2,3,4,5: eexists; split; [reflexivity|]; split; [reflexivity|]; split; [reflexivity|]; split; [|reflexivity];
    intros [] N; try reflexivity; congruence.
  cbn [item_ok] in O. destruct O as [h0 ->].
  unfold SetAssumeTables. destruct (set_typeinfos_spec h0 std (syms s)) as (h' & -> & V). cbn [bindr].
  eexists. split; [reflexivity|]. split; [reflexivity|]. split.
  - cbn [observe with_assumes SegAssumeTable StdAssumeTable syms]. f_equal.
    apply map_ext_in. intros a I. unfold get_typeinfo. destruct (symbol a) as [p|] eqn:E; [|reflexivity].
    specialize (V p). replace (existsb _ std) with true in V.
    2: { symmetry. apply existsb_exists. exists a. split; [exact I|]. rewrite E. lia. }
    injection V as -> -> -> -> ->. reflexivity.
  - split; [|reflexivity]. intros [] N; try reflexivity; congruence.
Qed.

(** ** POPCONTEXT *)
Lemma pop_loop_spec : forall st t s, Forall item_ok st -> 0 <= t < 32 ->
  exists st' t' s', pop_loop st t s = Ok (st', t', s') /\ Forall item_ok st' /\ 0 <= t' < 32 /\
    ContextStack s' = ContextStack s /\
    (forall k, of_kind k st' = if tsel t k then tl (of_kind k st) else of_kind k st) /\
    (forall k, observe s' k = if tsel t k then hd (observe s k) (of_kind k st) else observe s k) /\
    (forall k, tsel t' k = tsel t k && match of_kind k st with [] => true | _ => false end) /\
    sym_Cpu s' = (if tsel t K_cpu && match of_kind K_cpu st with [] => false | _ => true end
                  then option_map (fun _ => cpu s') (sym_Cpu s) else sym_Cpu s).
Proof.
  induction st as [|i st IH]; intros t s O T; cbn [pop_loop].
  - exists [], t, s. repeat split; try assumption; try lia; intros; cbn [of_kind filter tl hd]; rewrite ?andb_true_r, ?andb_false_r; try (destruct (tsel t k)); reflexivity.
  - inversion_clear O as [|x y OI OS].
    destruct (tsel_facts t T) as (_ & T2 & T3).
    destruct (Z.eqb_spec t 0) as [->|NZ].
    { exists (i :: st), 0, s. split; [reflexivity|]. split; [constructor; assumption|]. split; [lia|]. split; [reflexivity|].
      split; [intros; rewrite tsel_zero; reflexivity|]. split; [intros; rewrite tsel_zero; reflexivity|].
      split; [intros; rewrite tsel_zero; reflexivity|]. rewrite tsel_zero. reflexivity. }
    assert (TS : (Z.land (itype i) t =? 0) = negb (tsel t (ikind i))).
    { unfold tsel. rewrite itype_kt, negb_involutive. reflexivity. }
    rewrite TS. destruct (tsel t (ikind i)) eqn:SEL; cbn [negb].
    + destruct (restore_spec s i OI) as (s1 & R & S1 & V1 & V2 & V3). rewrite R. cbn [bindr].
      rewrite itype_kt. destruct (IH (Z.land t (Z.lnot (kt (ikind i)))) s1 OS (T2 _)) as (st' & t' & s' & E & A & B & C & D & F & G & H).
      exists st', t', s'. split; [exact E|]. split; [exact A|]. split; [exact B|]. split; [congruence|].
      split; [|split; [|split]].
      * intros k. rewrite D, T3. unfold of_kind. cbn [filter]. destruct (kind_eqb_spec (ikind i) k) as [<-|N]; cbn [negb].
        -- rewrite andb_false_r, SEL. reflexivity.
        -- rewrite andb_true_r. reflexivity.
      * intros k. rewrite F, T3. unfold of_kind. cbn [filter]. destruct (kind_eqb_spec (ikind i) k) as [<-|N]; cbn [negb].
        -- rewrite andb_false_r, SEL, V1. reflexivity.
        -- rewrite andb_true_r, V2 by congruence. reflexivity.
      * intros k. rewrite G, T3. unfold of_kind. cbn [filter]. destruct (kind_eqb_spec (ikind i) k) as [<-|N]; cbn [negb].
        -- rewrite andb_false_r. reflexivity.
        -- rewrite andb_true_r. reflexivity.
      * rewrite H, V3, T3. unfold of_kind. cbn [filter]. destruct (kind_eqb_spec (ikind i) K_cpu) as [E1|N]; cbn [negb].
        -- rewrite andb_false_r. rewrite <- E1, SEL. cbn [andb].
           assert (X : cpu s' = cpu s1).
           { specialize (F K_cpu). rewrite T3, E1 in F. cbn [kind_eqb negb] in F. rewrite andb_false_r in F. cbn [observe] in F. congruence. }
           rewrite X. reflexivity.
        -- rewrite andb_true_r. reflexivity.
    + destruct (IH t s OS T) as (st' & t' & s' & E & A & B & C & D & F & G & H). rewrite E. cbn [bindr].
      exists (i :: st'), t', s'. split; [reflexivity|]. split; [constructor; assumption|]. split; [exact B|]. split; [exact C|].
      split; [|split; [|split]].
      * intros k. unfold of_kind in *. cbn [filter]. rewrite D. destruct (kind_eqb_spec (ikind i) k) as [<-|N]; [|reflexivity].
        rewrite SEL. reflexivity.
      * intros k. rewrite F. unfold of_kind. cbn [filter]. destruct (kind_eqb_spec (ikind i) k) as [<-|N]; [|reflexivity].
        rewrite SEL. reflexivity.
      * intros k. rewrite G. unfold of_kind. cbn [filter]. destruct (kind_eqb_spec (ikind i) k) as [<-|N]; [|reflexivity].
        rewrite SEL. reflexivity.
      * rewrite H. unfold of_kind. cbn [filter]. destruct (kind_eqb_spec (ikind i) K_cpu) as [E1|N]; [|reflexivity].
        rewrite <- E1, SEL. reflexivity.
Qed.

Lemma pop_spec t s : stack_ok s -> 0 <= t < 32 ->
  exists e s', pop_context t s = Ok (e, s') /\ stack_ok s' /\
    m_eq (abs s') (m_pop (tsel t) (abs s)) /\
    (e = true <-> m_missing (tsel t) (abs s)) /\
    sym_Cpu s' = (if tsel t K_cpu && match saved (abs s) K_cpu with [] => false | _ => true end
                  then option_map (fun _ => cpu s') (sym_Cpu s) else sym_Cpu s).
Proof.
  intros O T. destruct (pop_loop_spec _ t s O T) as (st' & t' & s' & E & A & B & C & D & F & G & H).
  unfold pop_context. rewrite E. cbn [bindr]. eexists _, _. split; [reflexivity|]. split; [exact A|].
  split; [|split].
  - intros k. split; [|apply D].
    transitivity (observe s' k); [destruct k; reflexivity|apply F].
  - unfold m_missing, abs; cbn [saved]. rewrite negb_true_iff. split.
    + intros N. assert (NZ : t' <> 0) by lia.
      destruct (forallb (fun k => negb (tsel t' k)) kinds) eqn:Q.
      * exfalso. apply NZ. apply tsel_none; [exact B|]. rewrite forallb_forall in Q.
        intros k. specialize (Q k (in_kinds k)). destruct (tsel t' k); [discriminate|reflexivity].
      * assert (X : exists k, tsel t' k = true).
        { unfold kinds in Q. cbn [forallb] in Q.
          destruct (tsel t' K_assumes) eqn:?; [eauto|]. destruct (tsel t' K_radix) eqn:?; [eauto|].
          destruct (tsel t' K_listing) eqn:?; [eauto|]. destruct (tsel t' K_cpu) eqn:?; [eauto|].
          destruct (tsel t' K_alignment) eqn:?; [eauto|]. discriminate. }
        destruct X as [k X]. exists k. rewrite G in X. apply andb_prop in X as [X1 X2]. split; [exact X1|].
        destruct (of_kind k (ContextStack s)); [reflexivity|discriminate].
    + intros (k & X1 & X2). destruct (Z.eqb_spec t' 0) as [->|]; [|reflexivity].
      specialize (G k). rewrite tsel_zero, X1, X2 in G. discriminate.
  - exact H.
Qed.

(** ** PUSHCONTEXT *)
Lemma push_loop_spec : forall ks t s, stack_ok s -> 0 <= t < 32 -> NoDup ks -> (forall k, tsel t k = true -> In k ks) ->
  exists s', push_loop (map kt ks ++ [CONT_ALL]) t s = Ok s' /\ stack_ok s' /\
    m_eq (abs s') (m_push (tsel t) (abs s)) /\ sym_Cpu s' = sym_Cpu s.
Proof.
  induction ks as [|k ks IH]; intros t s O T ND IN.
  - assert (t = 0). { apply tsel_none; [exact T|]. intros k. destruct (tsel t k) eqn:E; [destruct (IN k E)|reflexivity]. }
    subst t. exists s. split; [reflexivity|]. split; [exact O|]. split; [|reflexivity]. intros k. cbn [m_push saved cur]. rewrite tsel_zero. auto.
  - cbn [map app push_loop]. destruct (Z.eqb_spec t 0) as [->|NZ].
    { exists s. split; [reflexivity|]. split; [exact O|]. split; [|reflexivity]. intros k'. cbn [m_push saved cur]. rewrite tsel_zero. auto. }
    destruct (tsel_facts t T) as (_ & T2 & T3). apply NoDup_cons_iff in ND as [NI ND].
    assert (TS : (Z.land t (kt k) =? 0) = negb (tsel t k)).
    { unfold tsel. rewrite Z.land_comm, negb_involutive. reflexivity. }
    rewrite TS. destruct (tsel t k) eqn:SEL; cbn [negb].
    + assert (SV : save_item s (kt k) = Some (observe s k)) by (destruct k; reflexivity).
      rewrite SV.
      assert (OK1 : item_ok (observe s k)) by (destruct k; cbn [observe item_ok]; try exact I; exists (syms s); reflexivity).
      assert (IK : ikind (observe s k) = k) by (destruct k; reflexivity).
      destruct (IH (Z.land t (Z.lnot (kt k))) (with_stack s (observe s k :: ContextStack s))) as (s' & E & A & B & C).
      * constructor; assumption.
      * apply T2.
      * exact ND.
      * intros k' Q. rewrite T3 in Q. apply andb_prop in Q as [Q1 Q2]. destruct (IN k' Q1) as [->|]; [|assumption].
        destruct (kind_eqb_spec k' k'); [discriminate|congruence].
      * exists s'. split; [exact E|]. split; [exact A|]. split; [|exact C].
        intros k'. destruct (B k') as [B1 B2]. split.
        -- rewrite B1. destruct k'; reflexivity.
        -- rewrite B2. cbn [m_push saved cur abs]. rewrite T3.
           cbn [with_stack ContextStack]. unfold of_kind. cbn [filter]. rewrite IK.
           destruct (kind_eqb_spec k k') as [->|N]; cbn [negb].
           ++ rewrite andb_false_r, SEL. reflexivity.
           ++ rewrite andb_true_r. destruct k'; reflexivity.
    + apply (IH t s O T ND). intros k' Q. destruct (IN k' Q) as [->|]; [congruence|assumption].
Qed.
Lemma push_spec t s : stack_ok s -> 0 <= t < 32 ->
  exists s', push_context t s = Ok (false, s') /\ stack_ok s' /\
    m_eq (abs s') (m_push (tsel t) (abs s)) /\ sym_Cpu s' = sym_Cpu s.
Proof.
  intros O T. destruct (push_loop_spec kinds t s O T) as (s' & E & R).
  - unfold kinds. repeat constructor; cbn; intuition discriminate.
  - intros k _. apply in_kinds.
  - unfold push_context. change typetab with (map kt kinds ++ [CONT_ALL]). rewrite E. cbn [bindr]. eauto.
Qed.

(** ** Words *)
Lemma case_agree a b : tolower a = tolower b <-> ascii_upper a = ascii_upper b.
Proof. unfold tolower, ascii_upper. split; repeat match goal with |- context [if ?c then _ else _] => destruct c eqn:? end; intros; lia. Qed.
Lemma case_agree_list : forall a b, map tolower a = map tolower b <-> map ascii_upper a = map ascii_upper b.
Proof.
  induction a as [|x a IH]; intros [|y b]; cbn [map]; try (split; intros; (reflexivity || discriminate)).
  split; intros H; injection H as H1 H2; apply case_agree in H1; apply IH in H2; congruence.
Qed.
Lemma stricmp_iff a b : stricmp_eq a b = true <-> map ascii_upper a = map ascii_upper b.
Proof.
  unfold stricmp_eq, str_eqb. destruct (list_eq_dec _ _ _) as [E|N].
  - split; [intros _; apply case_agree_list; exact E|reflexivity].
  - split; [discriminate|]. intros H. apply case_agree_list in H. contradiction.
Qed.

(** the position of a word in both tables *)
Lemma find_type_spec name :
  (exists t sel, find_type contextnames typetab name = Some t /\ In (map ascii_upper name, sel) words /\
     0 <= t < 32 /\ (forall k, tsel t k = sel k) /\
     (t =? CONT_ALIGNMENT) = sel K_alignment /\ (sel K_alignment = false -> Z.land t (Z.lnot CONT_ALIGNMENT) = t))
  \/ (find_type contextnames typetab name = None /\ forall sel, ~ selects name sel).
Proof.
  assert (W : forall n, In n contextnames -> map ascii_upper n = n).
  { intros n H. unfold contextnames in H. cbn [In] in H. repeat destruct H as [<-|H]; try reflexivity. destruct H. }
  unfold selects, find_type, contextnames, typetab.
  repeat match goal with |- context [if stricmp_eq ?n name then _ else _] =>
    let E := fresh "E" in let F := fresh "F" in
    pose proof (stricmp_iff n name) as F; rewrite (W n) in F by (vm_compute; auto 10);
    destruct (stricmp_eq n name) eqn:E;
    [left; eexists _, _; split; [reflexivity|]; rewrite <- (proj1 F eq_refl); split; [cbn; auto 10|];
       split; [vm_compute; split; congruence|]; split; [intros []; reflexivity|]; split; [reflexivity|];
       intros X; (reflexivity || discriminate)|] end.
  right. split; [reflexivity|]. intros sel H.
  cbn [words In] in H.
  repeat match goal with H : _ \/ _ |- _ => destruct H as [H|H] end; try contradiction;
    injection H as H1 _.
  - discriminate (proj2 F H1).
  - discriminate (proj2 F0 H1).
  - discriminate (proj2 F1 H1).
  - discriminate (proj2 F2 H1).
  - discriminate (proj2 F3 H1).
  - discriminate (proj2 F4 H1).
Qed.

(** ** The directive: words with commas or blanks between them *)
Inductive spelled : list (list Z) -> list tok -> Prop :=
  | sp_one n : spelled [n] [T_ID n]
  | sp_blank n ns toks : spelled ns toks -> spelled (n :: ns) (T_ID n :: toks)
  | sp_comma n ns toks : spelled ns toks -> spelled (n :: ns) (T_ID n :: T_COMMA :: toks).
Lemma spelled_nonempty ns toks : spelled ns toks -> exists n l, toks = T_ID n :: l.
Proof. destruct 1; eauto. Qed.

(** the words are allowed: in strict Masm mode there is no ALIGNMENT *)
Definition words_ok (strict : bool) (ns : list (list Z)) (sels : list (kind -> bool)) : Prop :=
  Forall2 (fun n sel => selects n sel /\ (strict = true -> sel K_alignment = false)) ns sels.

Lemma selects_fun n a b : In (n, a) words -> In (n, b) words -> a = b.
Proof.
  intros A B. cbn [words In] in A, B.
  repeat match goal with H : _ \/ _ |- _ => destruct H as [H|H] end; try contradiction; congruence.
Qed.

Lemma word_type strict n sel : selects n sel -> (strict = true -> sel K_alignment = false) ->
  exists t, find_type contextnames typetab n = Some t /\ 0 <= t < 32 /\ (forall k, tsel t k = sel k) /\
    strict && (t =? CONT_ALIGNMENT) = false /\ (if strict then Z.land t (Z.lnot CONT_ALIGNMENT) else t) = t.
Proof.
  intros Q A. destruct (find_type_spec n) as [(t & sel' & F & I & R & T & X & Y)|[_ N]]; [|destruct (N _ Q)].
  assert (sel' = sel) by (eapply selects_fun; eassumption). subst sel'.
  exists t. split; [exact F|]. split; [exact R|]. split; [exact T|]. rewrite X.
  destruct strict; [rewrite (A eq_refl); split; [reflexivity|apply Y; apply A; reflexivity]|split; reflexivity].
Qed.

Lemma m_eq_refl {P} (m : machine P) : m_eq m m.
Proof. split; reflexivity. Qed.
Lemma m_push_ext {P} s1 s2 (m : machine P) : (forall k, s1 k = s2 k) -> m_eq (m_push s1 m) (m_push s2 m).
Proof. intros E k. cbn [m_push cur saved]. rewrite E. auto. Qed.
Lemma m_pop_ext {P} s1 s2 (m : machine P) : (forall k, s1 k = s2 k) -> m_eq (m_pop s1 m) (m_pop s2 m).
Proof. intros E k. cbn [m_pop cur saved]. rewrite E. auto. Qed.
Lemma m_eq_trans {P} (a b c : machine P) : m_eq a b -> m_eq b c -> m_eq a c.
Proof. intros X Y k. destruct (X k), (Y k). split; congruence. Qed.
Lemma missing_ext {P} s1 s2 (m : machine P) : (forall k, s1 k = s2 k) -> m_missing s1 m <-> m_missing s2 m.
Proof. intros E. unfold m_missing. split; intros (k & A & B); exists k; rewrite E in *; auto. Qed.

Lemma context_loop_cons pop strict first n toks s : toks <> [] ->
  context_loop pop strict first (T_ID n :: T_COMMA :: toks) s = context_loop pop strict first (T_ID n :: toks) s
  \/ (exists l, toks = T_COMMA :: l).
Proof.
  intros N. destruct toks as [|[m| |] l]; [congruence| | right; eauto|]; left; cbn [context_loop]; reflexivity.
Qed.

Lemma spelled_step pop strict first n ns toks s : spelled (n :: ns) (T_ID n :: toks) ->
  exists rest, (ns = [] /\ rest = [] \/ spelled ns rest) /\
   context_loop pop strict first (T_ID n :: toks) s =
   match find_type contextnames typetab n with
      | None => Ok (true, s)
      | Some type =>
          if strict && (type =? CONT_ALIGNMENT) then Ok (true, s)
          else
            let type := if strict then Z.land type (Z.lnot CONT_ALIGNMENT) else type in
            bindr (if pop then pop_context type s else push_context type s) (fun '(e, s) =>
              if e then Ok (true, s) else context_loop pop strict false rest s)
      end.
Proof.
  intros SP. inversion SP; subst.
  - exists []. split; [auto|]. reflexivity.
  - exists toks. split; [auto|]. destruct (spelled_nonempty _ _ H0) as (x & l & ->). reflexivity.
  - exists toks0. split; [auto|]. destruct (spelled_nonempty _ _ H0) as (x & l & ->). reflexivity.
Qed.

Lemma directive_push strict : forall ns toks sels first s, spelled ns toks -> words_ok strict ns sels -> stack_ok s ->
  exists s', context_loop false strict first toks s = Ok (false, s') /\ stack_ok s' /\ pushes sels (abs s) (abs s').
Proof.
  induction ns as [|n ns IH]; intros toks sels first s SP W O; [inversion SP|].
  inversion W as [|? sel ? sels' [W1 W2] W3]; subst.
  assert (X : exists t, toks = T_ID n :: t) by (inversion SP; eauto). destruct X as [t ->].
  destruct (spelled_step false strict first n ns t s SP) as (rest & R & E). rewrite E.
  destruct (word_type strict n sel W1 W2) as (ty & F & TR & TS & A1 & A2). rewrite F, A1. cbv zeta. rewrite A2.
  destruct (push_spec ty s O TR) as (s1 & P & O1 & M & _). rewrite P. cbn [bindr].
  assert (M' : m_eq (abs s1) (m_push sel (abs s))) by (eapply m_eq_trans; [exact M|apply m_push_ext; exact TS]).
  destruct R as [[-> ->]|R].
  - inversion W3; subst. exists s1. split; [reflexivity|]. split; [exact O1|].
    eapply pu_cons; [exact M'|apply pu_nil, m_eq_refl].
  - destruct (IH rest sels' false s1 R W3 O1) as (s' & E' & O' & P'). exists s'. split; [exact E'|]. split; [exact O'|].
    eapply pu_cons; [exact M'|exact P'].
Qed.
Lemma directive_pop strict : forall ns toks sels first s, spelled ns toks -> words_ok strict ns sels -> stack_ok s ->
  exists e s', context_loop true strict first toks s = Ok (e, s') /\ stack_ok s' /\ pops sels (abs s) e (abs s').
Proof.
  induction ns as [|n ns IH]; intros toks sels first s SP W O; [inversion SP|].
  inversion W as [|? sel ? sels' [W1 W2] W3]; subst.
  assert (X : exists t, toks = T_ID n :: t) by (inversion SP; eauto). destruct X as [t ->].
  destruct (spelled_step true strict first n ns t s SP) as (rest & R & E). rewrite E.
  destruct (word_type strict n sel W1 W2) as (ty & F & TR & TS & A1 & A2). rewrite F, A1. cbv zeta. rewrite A2.
  destruct (pop_spec ty s O TR) as (e1 & s1 & P & O1 & M & MI & _). rewrite P. cbn [bindr].
  assert (M' : m_eq (abs s1) (m_pop sel (abs s))) by (eapply m_eq_trans; [exact M|apply m_pop_ext; exact TS]).
  assert (MI' : e1 = true <-> m_missing sel (abs s)) by (rewrite MI; apply missing_ext; exact TS).
  destruct e1.
  - exists true, s1. split; [reflexivity|]. split; [exact O1|]. apply po_err; [apply MI'; reflexivity|exact M'].
  - assert (NM : ~ m_missing sel (abs s)) by (intros Q; apply MI' in Q; discriminate).
    destruct R as [[-> ->]|R].
    + inversion W3; subst. exists false, s1. split; [reflexivity|]. split; [exact O1|].
      eapply po_ok; [exact NM|exact M'|apply po_nil, m_eq_refl].
    + destruct (IH rest sels' false s1 R W3 O1) as (e & s' & E' & O' & P'). exists e, s'. split; [exact E'|]. split; [exact O'|].
      eapply po_ok; [exact NM|exact M'|exact P'].
Qed.
Lemma directive_bad_word pop strict first n toks s : (forall sel, ~ selects n sel) ->
  context_loop pop strict first (T_ID n :: toks) s = Ok (true, s).
Proof.
  intros N. destruct (find_type_spec n) as [(t & sel' & F & I & _)|[F _]]; [destruct (N _ I)|].
  cbn [context_loop]. rewrite F. reflexivity.
Qed.

(** ** Nested histories *)
Definition cnt (sels : list (kind -> bool)) (k : kind) : nat := List.length (filter (fun sel => sel k) sels).
Lemma pushes_spec sels : forall (m m' : machine item), pushes sels m m' ->
  forall k, cur m' k = cur m k /\ saved m' k = repeat (cur m k) (cnt sels k) ++ saved m k.
Proof.
  induction sels as [|sel sels IH]; intros m m' H k; inversion H as [? ? Q0|? ? ? m1 ? Q1 Q2]; subst.
  - destruct (Q0 k) as [A B]. unfold cnt. cbn [filter length repeat app]. auto.
  - destruct (IH _ _ Q2 k) as [A B]. destruct (Q1 k) as [C D]. rewrite A, B, C, D. cbn [m_push cur saved].
    split; [reflexivity|]. unfold cnt. cbn [filter]. destruct (sel k); [|reflexivity].
    cbn [length]. set (c := List.length _). clearbody c. induction c as [|c IHc]; cbn [repeat app]; [reflexivity|]. rewrite IHc. reflexivity.
Qed.
Lemma pops_spec sels v : forall (m : machine item) e m' st,
  (forall k, saved m k = repeat (v k) (cnt sels k) ++ st k) -> pops sels m e m' ->
  e = false /\ forall k, saved m' k = st k /\ cur m' k = (if (cnt sels k =? 0)%nat then cur m k else v k).
Proof.
  induction sels as [|sel sels IH]; intros m e m' st R H.
  - inversion H as [? ? Q0| |]; subst. split; [reflexivity|]. intros k. destruct (Q0 k) as [A B]. rewrite A, B, R. cbn. auto.
  - assert (NM : ~ m_missing sel m).
    { intros (k & A & B). rewrite R in B. unfold cnt in B. cbn [filter] in B. rewrite A in B. discriminate. }
    inversion H as [|? ? ? m1 ? ? _ Q1 Q2|? ? ? ? Q3]; subst; [|contradiction].
    destruct (IH m1 e m' st) as [-> P]; [|assumption|].
    + intros k. destruct (Q1 k) as [_ D]. rewrite D. cbn [m_pop saved]. rewrite R. unfold cnt. cbn [filter].
      destruct (sel k); reflexivity.
    + split; [reflexivity|]. intros k. destruct (P k) as [P1 P2]. split; [exact P1|]. rewrite P2.
      destruct (Q1 k) as [C _]. rewrite C. cbn [m_pop cur]. rewrite R. unfold cnt. cbn [filter].
      destruct (sel k); cbn [length repeat app hd Nat.eqb]; [|reflexivity]. destruct (_ =? _)%nat; reflexivity.
Qed.

(** programs with properly nested PUSHCONTEXT/POPCONTEXT *)
Inductive prog :=
  | Change (f : cst -> cst)                 (* any other statement *)
  | Seq (p q : prog)
  | Ctx (toks : list tok) (body : prog).    (* PUSHCONTEXT toks; body; POPCONTEXT toks *)
Definition no_error (r : res (bool * cst)) : res cst :=
  bindr r (fun '(e, s) => if e : bool then Err else Ok s).
Fixpoint exec (strict : bool) (p : prog) (s : cst) : res cst :=
  match p with
  | Change f => Ok (f s)
  | Seq p q => bindr (exec strict p s) (exec strict q)
  | Ctx toks body =>
      bindr (no_error (ContextDirective false strict toks s)) (fun s =>
      bindr (exec strict body s) (fun s => no_error (ContextDirective true strict toks s)))
  end.
Fixpoint prog_ok (strict : bool) (p : prog) : Prop :=
  match p with
  | Change f => forall s, ContextStack (f s) = ContextStack s
  | Seq p q => prog_ok strict p /\ prog_ok strict q
  | Ctx toks body => (exists ns sels, spelled ns toks /\ words_ok strict ns sels) /\ prog_ok strict body
  end.

Lemma nested_one strict toks ns sels s sb : spelled ns toks -> words_ok strict ns sels -> stack_ok s ->
  exists s1, no_error (ContextDirective false strict toks s) = Ok s1 /\ stack_ok s1 /\ (forall k, observe s1 k = observe s k) /\
   (stack_ok sb -> (forall k, of_kind k (ContextStack sb) = of_kind k (ContextStack s1)) ->
    exists s3, no_error (ContextDirective true strict toks sb) = Ok s3 /\ stack_ok s3 /\
      (forall k, of_kind k (ContextStack s3) = of_kind k (ContextStack s)) /\
      forall k, observe s3 k = if existsb (fun sel => sel k) sels then observe s k else observe sb k).
Proof.
  intros SP W O. unfold ContextDirective.
  destruct (directive_push strict ns toks sels true s SP W O) as (s1 & E1 & O1 & P1). rewrite E1.
  pose proof (pushes_spec _ _ _ P1) as Q1. exists s1. split; [reflexivity|]. split; [exact O1|]. split; [intros k; apply (Q1 k)|].
  intros OB SB. destruct (directive_pop strict ns toks sels true sb SP W OB) as (e & s3 & E3 & O3 & P3). rewrite E3.
  destruct (pops_spec sels (observe s) (abs sb) e (abs s3) (fun k => of_kind k (ContextStack s))) as [-> R].
  - intros k. cbn [abs saved]. rewrite SB. apply (Q1 k).
  - exact P3.
  - exists s3. split; [reflexivity|]. split; [exact O3|]. split; [intros k; apply (R k)|].
    intros k. destruct (R k) as [_ R2]. cbn [abs cur] in R2. rewrite R2.
    assert (X : existsb (fun sel => sel k) sels = negb (cnt sels k =? 0)%nat).
    { unfold cnt. clear. induction sels as [|sel sels IH]; [reflexivity|]. cbn [existsb filter]. destruct (sel k); [reflexivity|exact IH]. }
    rewrite X. destruct (_ =? _)%nat; reflexivity.
Qed.

Lemma nested_ok strict p : prog_ok strict p -> forall s, stack_ok s ->
  exists s', exec strict p s = Ok s' /\ stack_ok s' /\ forall k, of_kind k (ContextStack s') = of_kind k (ContextStack s).
Proof.
  induction p as [f|p IHp q IHq|toks body IH]; cbn [prog_ok exec]; intros P s O.
  - exists (f s). split; [reflexivity|]. unfold stack_ok. rewrite P. auto.
  - destruct P as [P Q]. destruct (IHp P s O) as (s1 & -> & O1 & K1). cbn [bindr].
    destruct (IHq Q s1 O1) as (s2 & -> & O2 & K2). exists s2. split; [reflexivity|]. split; [exact O2|]. intros k. congruence.
  - destruct P as [(ns & sels & SP & W) P].
    destruct (nested_one strict toks ns sels s s SP W O) as (s1 & E1 & O1 & _ & _). rewrite E1. cbn [bindr].
    destruct (IH P s1 O1) as (sb & -> & OB & KB). cbn [bindr].
    destruct (nested_one strict toks ns sels s sb SP W O) as (s1' & E1' & _ & _ & F).
    assert (s1' = s1) by congruence. subst s1'.
    destruct (F OB KB) as (s3 & -> & O3 & K3 & _). exists s3. auto.
Qed.

Lemma nested_restores strict toks ns sels body s :
  prog_ok strict (Ctx toks body) -> spelled ns toks -> words_ok strict ns sels -> stack_ok s ->
  exists s1 sb s3, no_error (ContextDirective false strict toks s) = Ok s1 /\ exec strict body s1 = Ok sb /\
    exec strict (Ctx toks body) s = Ok s3 /\ (forall k, observe s1 k = observe s k) /\
    forall k, observe s3 k = if existsb (fun sel => sel k) sels then observe s k else observe sb k.
Proof.
  intros [_ P] SP W O.
  destruct (nested_one strict toks ns sels s s SP W O) as (s1 & E1 & O1 & S1 & _).
  destruct (nested_ok strict body P s1 O1) as (sb & EB & OB & KB).
  destruct (nested_one strict toks ns sels s sb SP W O) as (s1' & E1' & _ & _ & F).
  assert (s1' = s1) by congruence. subst s1'.
  destruct (F OB KB) as (s3 & E3 & _ & _ & R).
  exists s1, sb, s3. split; [exact E1|]. split; [exact EB|]. split; [|auto].
  cbn [exec]. rewrite E1. cbn [bindr]. rewrite EB. cbn [bindr]. exact E3.
Qed.
