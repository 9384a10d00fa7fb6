(** C42: the row chosen for an instruction; C39: what is accepted. *)
From Coq Require Import String Ascii.
From Verif Require Import Base Mem_Model Mem_Spec V2_Model V2_Table V2_Spec V2Bits_Proofs V2Row_Proofs V2Type_Proofs V2Gen_Proofs V2Asm_Proofs.
Open Scope list_scope.
Local Opaque tab regs row_entry lookup InstrTableV2.

Local Arguments wrap : simpl never.
Local Arguments swrap : simpl never.
Local Arguments Z.land : simpl never.
Local Arguments Z.testbit : simpl never.

(** ** The hash table *)
Lemma types_eqb_ok a : forall b, types_eqb a b = true <-> a = b.
Proof.
  induction a as [|x a IH]; intros [|y b]; cbn [types_eqb]; split; intros H; try discriminate; try reflexivity.
  - apply andb_prop in H as [H1 H2]. apply beq_eq in H1. apply IH in H2. congruence.
  - inversion H; subst. rewrite beq_refl. apply IH. reflexivity.
Qed.
Lemma bucket hash t : forall b h, fold_left (InsertInstruction hash) t b h = b h ++ filter (fun d => Nat.eqb h (row_hash hash d)) t.
Proof.
  induction t as [|d t IH]; intros b h; cbn [fold_left filter]; [symmetry; apply app_nil_r|].
  rewrite IH. unfold InsertInstruction. destruct (Nat.eqb h (row_hash hash d)); [rewrite <- app_assoc; reflexivity|reflexivity].
Qed.
Lemma find_filter (p q : row -> bool) t : (forall d, p d = true -> q d = true) -> find p (filter q t) = find p t.
Proof.
  intros H. induction t as [|d t IH]; [reflexivity|]. cbn [filter find]. destruct (p d) eqn:P.
  - rewrite (H d P). cbn [find]. rewrite P. reflexivity.
  - destruct (q d); [cbn [find]; rewrite P|]; exact IH.
Qed.
Lemma lookup_find hash t name types memreg c src dst :
  LookupInstruction hash (BuildInstructionTable hash t) name types memreg c src dst = find (row_matches name types memreg c src dst) t.
Proof.
  unfold LookupInstruction, BuildInstructionTable. rewrite bucket. cbn [app]. apply find_filter. intros d H. unfold row_matches in H.
  repeat (apply andb_prop in H; destruct H as [H ?]). apply Nat.eqb_eq. unfold row_hash. unfold same_name in H. apply String.eqb_eq in H. rewrite H.
  match goal with X : types_eqb _ _ = true |- _ => apply types_eqb_ok in X; rewrite X end. reflexivity.
Qed.
Lemma find_first (p : row -> bool) (P : row -> Prop) t : (forall d, In d t -> p d = true <-> P d) -> first_fit P t (find p t).
Proof.
  induction t as [|d t IH]; intros H; cbn [find]; [constructor|]. assert (Hd := H d (or_introl eq_refl)). destruct (p d) eqn:E.
  - exists [], t. split; [reflexivity|]. split; [apply Hd; reflexivity|constructor].
  - assert (N : ~ P d) by (intros X; apply Hd in X; discriminate). specialize (IH (fun e He => H e (or_intror He))). destruct (find p t) as [e|]; cbn [first_fit] in *.
    + destruct IH as (a & b & -> & X & Y). exists (d :: a), b. split; [reflexivity|]. split; [exact X|constructor; assumption].
    + constructor; assumption.
Qed.
Lemma no_vcvt : forallb (fun d => negb (same_name (d_name d) "vcvtpd2ps" || same_name (d_name d) "vcvttpd2dq")) InstrTableV2 = true.
Proof. vm_compute. reflexivity. Qed.
Lemma mode_in m l : existsb (cpumode_eqb m) l = true <-> In m l.
Proof.
  rewrite existsb_exists. split.
  - intros (x & Hx & E). destruct m, x; try discriminate; exact Hx.
  - intros H. exists m. split; [exact H|destruct m; reflexivity].
Qed.
Lemma matches_fits name types memreg c src dst d : In d InstrTableV2 -> row_matches name types memreg c src dst d = true <-> fits name types memreg c src dst d.
Proof.
  intros Hin. unfold row_matches. split.
  - intros H. repeat (apply andb_prop in H; destruct H as [H ?]).
    constructor.
    + apply String.eqb_eq. assumption.
    + apply types_eqb_ok. assumption.
    + apply mode_in. assumption.
    + intros ->. destruct (has NO_MEM_REG (d_flags d)); [discriminate|reflexivity].
    + intros S1. rewrite S1 in *. cbn [andb] in *. destruct (c_evex c); [rewrite ?orb_true_r in *; discriminate|]. rewrite orb_false_r in *.
      match goal with X : negb (_ || _) = true |- _ => revert X end. destruct (src <=? 7) eqn:E1, (7 <? src) eqn:E2, (7 <? dst) eqn:E3, (dst <=? 7) eqn:E4; cbn; intros; try discriminate; lia.
  - intros [A B C D E]. repeat (apply andb_true_intro; split).
    + apply String.eqb_eq. exact A.
    + apply types_eqb_ok. exact B.
    + apply mode_in. exact C.
    + destruct memreg; [|reflexivity]. rewrite D; reflexivity.
    + destruct (has SRCHDSTL (d_flags d)); [|reflexivity]. destruct (E eq_refl) as (E1 & E2 & E3). rewrite E3. cbn [andb]. apply negb_true_iff. rewrite orb_false_r. apply orb_false_intro; [apply orb_false_intro|]; lia.
    + pose proof no_vcvt as V. rewrite forallb_forall in V. specialize (V d Hin). apply negb_true_iff in V. unfold same_name in V |- *. rewrite A in V. rewrite V. cbn [negb]. rewrite orb_true_r. reflexivity.
Qed.
Theorem lookup_first hash name types memreg c src dst :
  first_fit (fits name types memreg c src dst) InstrTableV2 (LookupInstruction hash (BuildInstructionTable hash InstrTableV2) name types memreg c src dst).
Proof. rewrite lookup_find. apply find_first. intros d Hd. apply matches_fits. exact Hd. Qed.

(** ** The choice *)
Lemma memreg_located s o : flags_ok o -> has_memreg s o = match o with OMem m => located s m | _ => false end.
Proof.
  destruct o as [|m| |]; try reflexivity. cbn [flags_ok has_memreg]. intros [A B]. unfold located.
  assert (X : match s, x_sym m with USE64, Some _ => true | _, _ => false end = ofs_eqb s USE64 && match x_sym m with Some _ => true | None => false end) by (destruct s; cbn [ofs_eqb andb]; reflexivity).
  rewrite X. apply f_equal2; [|reflexivity]. destruct (x_addr m); cbn [andb negb orb].
  - rewrite orb_false_r. destruct (x_base m), (x_idx m); reflexivity.
  - destruct (x_indirect m).
    + destruct (B eq_refl eq_refl) as [Y | Y]; destruct (x_base m), (x_idx m); try reflexivity; congruence.
    + destruct (A eq_refl) as [-> ->]. reflexivity.
Qed.
Lemma existsb_ext_in {A} (f g : A -> bool) l : (forall x, In x l -> f x = g x) -> existsb f l = existsb g l.
Proof. induction l as [|a l IH]; intros H; [reflexivity|]. cbn [existsb]. rewrite (H a (or_introl eq_refl)), IH; [reflexivity|]. intros; apply H; right; assumption. Qed.
Lemma num_eq o : match base_reg o with Some r => regno (Some r) | None => 0 end = opnd_num o.
Proof. destruct o as [r|m| |]; try reflexivity. Qed.
Definition found hash (name : string) (c : ci) (l : list opnd) : option row :=
  let memreg := existsb (has_memreg (c_mode c)) l in
  let dst := match base_reg (opn l 0) with Some r => regno (Some r) | None => 0 end in
  let src := match base_reg (opn l 1) with Some r => regno (Some r) | None => 0 end in
  match LookupInstruction hash (BuildInstructionTable hash InstrTableV2) name (map MatchOperand l) memreg c src dst with
  | Some d => Some d
  | None => LookupInstruction hash (BuildInstructionTable hash InstrTableV2) name (map DemoteOperand (map MatchOperand l)) memreg c src dst
  end.
Lemma found_chosen hash name c l : Forall flags_ok l -> chosen InstrTableV2 name c l (found hash name c l).
Proof.
  intros F. unfold found, chosen. rewrite !num_eq.
  rewrite (existsb_ext_in (has_memreg (c_mode c)) (fun o => match o with OMem m => located (c_mode c) m | _ => false end) l).
  2:{ intros o Ho. rewrite Forall_forall in F. apply memreg_located, F, Ho. }
  rewrite map_map.
  set (mr := existsb _ l). pose proof (lookup_first hash name (map MatchOperand l) mr c (opnd_num (opn l 1)) (opnd_num (opn l 0))) as L1.
  pose proof (lookup_first hash name (map (fun o => DemoteOperand (MatchOperand o)) l) mr c (opnd_num (opn l 1)) (opnd_num (opn l 0))) as L2.
  destruct (LookupInstruction _ _ name (map MatchOperand l) mr c _ _) as [d|].
  - left. exact L1.
  - destruct (LookupInstruction _ _ name (map (fun o => DemoteOperand (MatchOperand o)) l) mr c _ _) as [d|]; [right; split; assumption|split; assumption].
Qed.

Lemma mem_types : forallb (fun d => match d_mem d with NoMem => true | MemOpnd i | MemAbs i => Nat.ltb i (length (d_types d)) && mem_type (nth i (d_types d) T_R_RIP) end) InstrTableV2 = true.
Proof. vm_compute. reflexivity. Qed.
Lemma first_in (P : row -> Prop) t d : first_fit P t (Some d) -> In d t /\ P d.
Proof. intros (a & b & -> & H & _). split; [apply in_elt|exact H]. Qed.
Lemma chosen_facts t name c l d : chosen t name c l (Some d) ->
  In d t /\ lowers (d_name d) = lowers name /\ In (mode_bit (c_mode c)) (d_modes d) /\ (map MatchOperand l = d_types d \/ map DemoteOperand (map MatchOperand l) = d_types d) /\
  (has NO_MEM_REG (d_flags d) = true -> existsb (fun o => match o with OMem m => located (c_mode c) m | _ => false end) l = false).
Proof.
  unfold chosen. rewrite map_map.
  intros [H | [_ H]]; apply first_in in H as [Hi [A B C D E]]; (split; [exact Hi|]; split; [exact A|]; split; [exact C|]; split; [auto|]); intros N; destruct (existsb _ l); auto; rewrite D in N by reflexivity; discriminate.
Qed.
Lemma nth_typed d l i : map MatchOperand l = d_types d \/ map DemoteOperand (map MatchOperand l) = d_types d -> (i < length (d_types d))%nat -> has_type (opn l i) (nth i (d_types d) T_R_RIP) = true.
Proof.
  intros H Hi. unfold has_type. destruct H as [E | E]; rewrite <- E in Hi |- *; rewrite ?map_length in Hi.
  - rewrite (nth_indep _ T_R_RIP (MatchOperand ONone)) by (rewrite map_length; exact Hi). rewrite map_nth. unfold opn. rewrite beq_refl. reflexivity.
  - rewrite map_map. rewrite (nth_indep _ T_R_RIP (DemoteOperand (MatchOperand ONone))) by (rewrite map_length; exact Hi). rewrite (map_nth (fun o => DemoteOperand (MatchOperand o))). unfold opn. rewrite beq_refl. apply orb_true_r.
Qed.
Lemma memory_operand name c l d i : chosen InstrTableV2 name c l (Some d) -> d_mem d = MemOpnd i \/ d_mem d = MemAbs i -> (i < length l)%nat /\ exists m, opn l i = OMem m.
Proof.
  intros H Hm. apply chosen_facts in H as (Hi & _ & _ & Ty & _). pose proof mem_types as M. rewrite forallb_forall in M. specialize (M d Hi).
  assert (M' : (Nat.ltb i (length (d_types d)) && mem_type (nth i (d_types d) T_R_RIP)) = true) by (destruct Hm as [E | E]; rewrite E in M; exact M). apply andb_prop in M' as [M1 M2]. apply Nat.ltb_lt in M1.
  pose proof (nth_typed d l i Ty M1) as T. split; [destruct Ty as [E | E]; rewrite <- E in M1; rewrite ?map_length in M1; exact M1|]. destruct (opn l i) as [r|m|s v f|] eqn:E.
  - apply type_reg, reg_type_split in T as [T _]. congruence.
  - eauto.
  - apply type_imm in T as [_ T]. congruence.
  - exfalso. unfold opn in E. assert (L : (i < length l)%nat) by (destruct Ty as [X | X]; rewrite <- X in M1; rewrite ?map_length in M1; exact M1).
    apply has_type_cases in T. cbn [MatchOperand DemoteOperand] in T. destruct T as [T | T]; rewrite T in M2; discriminate.
Qed.

Lemma half_mod a : (a + 2147483648) mod 4294967296 = 0 <-> a mod 4294967296 = 2147483648.
Proof. split; intros H; lia. Qed.
Lemma short_value v : (- 2 ^ 31 <? swrap 32 (wrap 64 v)) && (wrap 64 v <? 2 ^ 32 - 1) = true <-> v mod 2 ^ 64 < 2 ^ 32 - 1 /\ v mod 2 ^ 32 <> 2 ^ 31.
Proof.
  unfold swrap, wrap. assert (E : (v mod 2 ^ 64) mod 2 ^ 32 = v mod 2 ^ 32) by (symmetry; apply Znumtheory.Zmod_div_mod; [lia|lia|exists (2 ^ 32); reflexivity]).
  rewrite <- E. generalize (v mod 2 ^ 64). clear E v. intros a. change (2 ^ (32 - 1)) with 2147483648. change (2 ^ 31) with 2147483648. change (2 ^ 32) with 4294967296.
  pose proof (half_mod a) as X. pose proof (Z.mod_pos_bound (a + 2147483648) 4294967296 ltac:(lia)) as B. revert X B. generalize ((a + 2147483648) mod 4294967296), (a mod 4294967296). intros p q X B.
  rewrite andb_true_iff, !Z.ltb_lt. split; intros [P Q]; (split; [lia|]); [intros R; apply X in R|]; lia.
Qed.
Lemma select_found hash name c l : select hash (BuildInstructionTable hash InstrTableV2) name c l =
  match found hash name c l with
  | Some d => match d_mem d with
              | NoMem => Some d
              | m => if ofs_eqb (c_mode c) USE64 && negb (same_name name "movabs") && gp_group (d_group d) && negb (existsb (has_memreg (c_mode c)) l) then
                       let data := match opn l (memidx m) with OMem x => wrap 64 (x_value x) | OImm _ v _ => wrap 64 v | _ => 0 end in
                       if (- 2 ^ 31 <? swrap 32 data) && (data <? 2 ^ 32 - 1) then None else Some d
                     else Some d
              end
  | None => None
  end.
Proof. reflexivity. Qed.
Lemma not_located mode l : Forall flags_ok l -> (existsb (has_memreg mode) l = false <-> forall m, In (OMem m) l -> located mode m = false).
Proof.
  intros F. rewrite (existsb_ext_in (has_memreg mode) (fun o => match o with OMem m => located mode m | _ => false end) l) by (intros o Ho; rewrite Forall_forall in F; apply memreg_located, F, Ho). split.
  - intros H m Hm. destruct (located mode m) eqn:E; [|reflexivity]. exfalso. assert (X : existsb (fun o => match o with OMem m => located mode m | _ => false end) l = true) by (apply existsb_exists; exists (OMem m); auto). congruence.
  - intros H. destruct (existsb _ l) eqn:E; [|reflexivity]. apply existsb_exists in E as (o & Ho & X). destruct o; try discriminate. rewrite H in X by exact Ho. discriminate.
Qed.
Lemma ofs64 s : ofs_eqb s USE64 = true <-> s = USE64.
Proof. destruct s; split; intros H; try discriminate; reflexivity. Qed.
Theorem select_spec hash name c l : Forall flags_ok l ->
  match select hash (BuildInstructionTable hash InstrTableV2) name c l with
  | Some d => chosen InstrTableV2 name c l (Some d) /\ ~ short_address name c l d
  | None => chosen InstrTableV2 name c l None \/ exists d, chosen InstrTableV2 name c l (Some d) /\ short_address name c l d
  end.
Proof.
  intros F. rewrite select_found. pose proof (found_chosen hash name c l F) as C. destruct (found hash name c l) as [d|]; [|left; exact C].
  assert (G : forall i, d_mem d = MemOpnd i \/ d_mem d = MemAbs i -> (if ofs_eqb (c_mode c) USE64 && negb (same_name name "movabs") && gp_group (d_group d) && negb (existsb (has_memreg (c_mode c)) l) then
                       (- 2 ^ 31 <? swrap 32 (match opn l i with OMem x => wrap 64 (x_value x) | OImm _ v _ => wrap 64 v | _ => 0 end)) && (match opn l i with OMem x => wrap 64 (x_value x) | OImm _ v _ => wrap 64 v | _ => 0 end <? 2 ^ 32 - 1) else false) = true <-> short_address name c l d).
  { intros i Hi. destruct (memory_operand name c l d i C Hi) as (_ & m & M). rewrite M. unfold short_address. split.
    - destruct (ofs_eqb (c_mode c) USE64 && negb (same_name name "movabs") && gp_group (d_group d) && negb (existsb (has_memreg (c_mode c)) l)) eqn:E; [|discriminate]. intros H. repeat (apply andb_prop in E; destruct E as [E ?]).
      apply ofs64 in E. split; [exact E|]. split; [|split; [assumption|split]].
      + intros N. match goal with X : negb (same_name _ _) = true |- _ => unfold same_name in X; rewrite N in X; discriminate X end.
      + apply not_located; [exact F|]. rewrite <- E. apply negb_true_iff. assumption.
      + exists i, m. apply short_value in H as [Ha Hb]. auto.
    - intros (A & B & D & L & j & m' & J & M' & V). assert (j = i) by (destruct Hi as [X | X], J as [Y | Y]; congruence). subst j. rewrite M in M'. assert (m' = m) by congruence. subst m'.
      apply (not_located USE64 l F) in L. rewrite A, D, L. change (ofs_eqb USE64 USE64) with true. assert (N : same_name name "movabs" = false) by (apply String.eqb_neq; exact B). rewrite N. cbn [andb negb]. apply short_value. exact V. }
  destruct (d_mem d) as [|i|i] eqn:Em.
  - split; [exact C|]. intros (_ & _ & _ & _ & i & m & [X | X] & _); congruence.
  - specialize (G i (or_introl eq_refl)). cbn [memidx]. destruct (ofs_eqb (c_mode c) USE64 && _ && _ && _); [cbv zeta; destruct (_ && _)|]; [right; exists d; split; [exact C|apply G; reflexivity]|split; [exact C|]..]; intros X; apply G in X; discriminate.
  - specialize (G i (or_intror eq_refl)). cbn [memidx]. destruct (ofs_eqb (c_mode c) USE64 && _ && _ && _); [cbv zeta; destruct (_ && _)|]; [right; exists d; split; [exact C|apply G; reflexivity]|split; [exact C|]..]; intros X; apply G in X; discriminate.
Qed.

(** ** The row chosen is one that the instruction may be assembled with *)
Definition quads_first (d : row) : bool :=
  if has REXP_MEM (d_flags d) && existsb (optype_beq T_M_ANY) (d_types d) then
    match d_types d with
    | [T_M_ANY; i] => imm_type i && existsb (fun e => same_name (d_name e) (d_name d) && types_eqb (d_types e) [T_M64; i] && forallb (fun m => existsb (cpumode_eqb m) (d_modes e)) (d_modes d) &&
                                                     negb (has NO_MEM_REG (d_flags e)) && negb (has SRCHDSTL (d_flags e))) InstrTableV2
    | _ => false
    end
  else true.
Lemma quads_ok : forallb quads_first InstrTableV2 = true.
Proof. vm_compute. reflexivity. Qed.
Lemma demote_imm t i : imm_type i = true -> DemoteOperand t = i -> t = i.
Proof. destruct t; cbn; intros H <-; try reflexivity; discriminate. Qed.
Lemma chosen_untyped name c l d : chosen InstrTableV2 name c l (Some d) -> has REXP_MEM (d_flags d) = true -> In T_M_ANY (d_types d) -> forall m, In (OMem m) l -> x_size m <> Sz64.
Proof.
  intros C Rx Ta m Hm Sz. destruct (chosen_facts _ _ _ _ _ C) as (Hi & Nm & Md & _). pose proof quads_ok as Q. rewrite forallb_forall in Q. specialize (Q d Hi). unfold quads_first in Q. rewrite Rx in Q.
  assert (X : existsb (optype_beq T_M_ANY) (d_types d) = true) by (apply existsb_exists; exists T_M_ANY; auto). rewrite X in Q. cbn [andb] in Q. clear X.
  destruct (d_types d) as [|t0 tl] eqn:Et; [discriminate|]. destruct t0; try discriminate. destruct tl as [|i [|]]; try discriminate. apply andb_prop in Q as [Qi Q].
  apply existsb_exists in Q as (e & He & Q). repeat (apply andb_prop in Q; destruct Q as [Q ?]).
  assert (MS : MatchOperand (OMem m) = T_M64) by (cbn [MatchOperand]; rewrite Sz; reflexivity).
  assert (Two : forall f : optype -> optype, (forall t, f t = i -> t = i) -> map (fun o => f (MatchOperand o)) l = [T_M_ANY; i] -> exists b, l = [OMem m; b] /\ MatchOperand b = i).
  { intros f Hf E. destruct l as [|a [|b [|]]]; try discriminate. cbn [map] in E. assert (E1 : f (MatchOperand a) = T_M_ANY) by congruence. assert (E2 : f (MatchOperand b) = i) by congruence. apply Hf in E2. exists b. split; [|exact E2].
    destruct Hm as [-> | [-> | []]]; [reflexivity|]. rewrite MS in E2. subst i. discriminate. }
  unfold chosen in C. destruct C as [C | [N C]]; apply first_in in C as [_ [_ C _ _ _]].
  - rewrite Et in C. symmetry in C. destruct (Two (fun t => t) (fun t H => H) C) as (b & -> & Eb). cbn [map] in C. rewrite MS in C. discriminate.
  - rewrite Et in C. symmetry in C. destruct (Two DemoteOperand (fun t => demote_imm t i Qi) C) as (b & -> & Eb). rewrite Forall_forall in N. apply (N e He). constructor.
    + rewrite <- Nm. apply String.eqb_eq. exact Q.
    + cbn [map]. rewrite MS, Eb. apply types_eqb_ok. assumption.
    + match goal with X : forallb _ _ = true |- _ => rewrite forallb_forall in X; apply mode_in, X; exact Md end.
    + intros _. apply negb_true_iff. assumption.
    + intros S1. rewrite S1 in *. discriminate.
Qed.
Theorem chosen_ok name c l d : Forall flags_ok l -> chosen InstrTableV2 name c l (Some d) -> rest_ok d c l -> written_ok d c l.
Proof.
  intros F C R. pose proof (chosen_untyped name c l d C) as U. destruct (chosen_facts _ _ _ _ _ C) as (Hi & Nm & Md & Ty & Ab). destruct R.
  constructor; try assumption.
  intros N. specialize (Ab N). assert (L : forall m, In (OMem m) l -> located (c_mode c) m = false).
  { intros m Hm. destruct (located (c_mode c) m) eqn:E; [|reflexivity]. exfalso. assert (X : existsb (fun o => match o with OMem m => located (c_mode c) m | _ => false end) l = true) by (apply existsb_exists; exists (OMem m); auto). congruence. }
  split; [apply not_located; assumption|]. intros m Hm. specialize (L m Hm). unfold located in L. destruct (x_base m), (x_idx m); try discriminate L; auto.
Qed.
(** the byte constants *)
Definition resized (m m' : memx) : Prop :=
  x_base m' = x_base m /\ x_idx m' = x_idx m /\ x_scale m' = x_scale m /\ x_value m' = x_value m /\ x_sym m' = x_sym m /\ x_addr m' = x_addr m /\ x_indirect m' = x_indirect m /\ x_fix m' = x_fix m /\ x_q m' = x_q m /\
  (x_size m' = x_size m \/ (x_size m = SzNone /\ x_size m' = Sz8)).
Definition same_source (o o' : opnd) : Prop :=
  match o, o' with
  | OMem m, OMem m' => resized m m'
  | OImm t v f, OImm t' v' f' => v' = v /\ f' = f /\ (t' = t \/ (t = I16 /\ t' = I8 /\ -255 <= swrap 32 v <= 255))
  | _, _ => o' = o
  end.
Lemma same_refl o : same_source o o.
Proof. destruct o; cbn; unfold resized; auto 20. Qed.
Lemma same_refls l : Forall2 same_source l l.
Proof. induction l; constructor; auto using same_refl. Qed.
Lemma fix_same name word l : Forall2 same_source l (fix_imm name word l).
Proof.
  destruct l as [|o1 [|[| |t v f|] r]]; try apply same_refls. cbn [fix_imm].
  destruct (_ && _ && _) eqn:E; [|apply same_refls]. apply andb_prop in E as [E E3]. apply andb_prop in E as [E1 E2].
  assert (Im : same_source (OImm t v f) (OImm I8 v f)). { cbn [same_source]. split; [reflexivity|]. split; [reflexivity|]. destruct t; try discriminate; [left; reflexivity|right]. repeat split; lia. }
  assert (K : Forall2 same_source (o1 :: OImm t v f :: r) (o1 :: OImm I8 v f :: r)) by (constructor; [apply same_refl|constructor; [exact Im|apply same_refls]]).
  pose proof (same_refls (o1 :: OImm t v f :: r)) as K'.
  destruct o1 as [[k n]|m| |].
  - destruct k; try exact K; destruct (_ || _); assumption.
  - assert (Rz : x_size m = SzNone \/ x_size m = Sz8 -> Forall2 same_source (OMem m :: OImm t v f :: r) (OMem {| x_size := Sz8; x_base := x_base m; x_idx := x_idx m; x_scale := x_scale m; x_value := x_value m; x_sym := x_sym m;
                                              x_addr := x_addr m; x_indirect := x_indirect m; x_fix := x_fix m; x_q := x_q m |} :: OImm I8 v f :: r)).
    { intros Hs. constructor; [|constructor; [exact Im|apply same_refls]]. cbn [same_source]. unfold resized. cbn. intuition. }
    destruct (x_size m); auto; destruct (_ || _); assumption.
  - destruct (_ || _); assumption.
  - destruct (_ || _); assumption.
Qed.
(** from the source line to the instruction decoded *)
Theorem assembled hash name word c l o : Forall flags_ok l -> l <> [] -> CodeGenV2 hash (BuildInstructionTable hash InstrTableV2) name word c l = Some (Ok o) ->
  exists d, chosen InstrTableV2 name c (fix_imm name word l) (Some d) /\ lowers (d_name d) = lowers name /\
            (rest_ok d c (fix_imm name word l) -> forall v bytes, linked d c (fix_imm name word l) o v bytes -> decodes_to d c (fix_imm name word l) v bytes).
Proof.
  intros F NE. unfold CodeGenV2. cbv zeta.
  pose proof (fix_same name word l) as FS.
  assert (F' : Forall flags_ok (fix_imm name word l)).
  { induction FS as [|a a' x x' H1 H2 IH]; [constructor|]. inversion F; subst. constructor; [|destruct x; [inversion H2; constructor|apply IH; [assumption|discriminate]]].
    destruct a as [|m| |], a' as [|m'| |]; cbn [same_source] in H1; try congruence; try exact Logic.I. destruct H1 as (A1 & A2 & _ & _ & _ & A3 & A4 & _). cbn [flags_ok] in *. rewrite A1, A2, A3, A4. assumption. }
  assert (NE' : fix_imm name word l <> []) by (destruct FS; [congruence|discriminate]).
  pose proof (select_spec hash name c (fix_imm name word l) F') as S1. destruct (select hash _ name c (fix_imm name word l)) as [d|]; [|discriminate].
  intros G. assert (G' : gen d c (fix_imm name word l) = Ok o) by congruence. destruct S1 as [S1 _]. exists d. split; [exact S1|]. destruct (chosen_facts _ _ _ _ _ S1) as (Hi & Nm & _). split; [exact Nm|].
  intros R v bytes LK. exact (gen_decodes d c _ o v bytes Hi NE' (chosen_ok _ _ _ _ F' S1 R) G' LK).
Qed.
