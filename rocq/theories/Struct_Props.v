(** C07: STRUCT/UNION layout; C08: lookup of members. *)
From Coq Require Import String Ascii.
From Verif Require Import Base Struct_Model Struct_Spec StructRun_Spec Struct_Proofs StructNames_Proofs StructUse_Proofs.
Local Open Scope string_scope. Local Open Scope list_scope. Local Open Scope Z_scope.
Definition str (s : string) : list Z := map (fun a => Z.of_nat (nat_of_ascii a)) (list_ascii_of_string s).

(** ** C07 *)
(** accepted alignment arguments: powers of 2 up to 64; otherwise the module's setting *)
Theorem C07_alignment : forall fa a al, - 2 ^ 31 <= a < 2 ^ 31 ->
  (StructAlignment fa (Some a) = Ok al <-> al = a /\ a <= 64 /\ exists k, 0 <= k /\ a = 2 ^ k) /\ StructAlignment fa None = Ok (2 ^ fa).
Proof. intros fa a al B. split; [apply StructAlignment_iff; exact B|reflexivity]. Qed.
Print Assumptions C07_alignment.

(** every accepted definition has the specified layout: each field at the next suitable offset, the size at the next multiple *)
Theorem C07_layout : forall cs u fa arg body al c, StructAlignment fa arg = Ok al -> 1 <= al <= 64 -> all_of fine body -> sum_of weight body + 64 < 2 ^ 31 ->
  StructDef cs u fa arg body = Ok c ->
  exists p t, lines al u body (0, 0, 0) (head c) (p, t, max_mbr_size c) /\ place (eff al (max_mbr_size c)) t (total_size c).
Proof. exact struct_layout. Qed.
Print Assumptions C07_layout.

(** definitions with distinct names are accepted *)
Theorem C07_accepted : forall cs u fa arg body al, StructAlignment fa arg = Ok al -> 1 <= al <= 64 -> all_of fine body -> sum_of weight body + 64 < 2 ^ 31 ->
  all_of (no_org u) body -> distinct cs (flat_map dnames body) -> all_of (inner_distinct cs) body -> max_of ddepth body <= 31 -> all_of shallow body ->
  exists c, StructDef cs u fa arg body = Ok c.
Proof. exact struct_accepted. Qed.
Print Assumptions C07_accepted.
Theorem C07_no_ub : forall cs u fa arg body al, StructAlignment fa arg = Ok al -> 1 <= al <= 64 -> all_of fine body -> sum_of weight body + 64 < 2 ^ 31 -> StructDef cs u fa arg body <> UB.
Proof. exact struct_no_ub. Qed.
Print Assumptions C07_no_ub.

(** every field lies inside the structure *)
Theorem C07_contained : forall cs u fa arg body al c f, StructAlignment fa arg = Ok al -> 1 <= al <= 64 -> all_of fine body -> sum_of weight body + 64 < 2 ^ 31 ->
  StructDef cs u fa arg body = Ok c -> In f (head c) -> 0 <= f_off f /\ 0 <= f_size f /\ f_off f + f_size f <= total_size c.
Proof.
  intros cs u fa arg body al c f SA AB FI W R IN. destruct (struct_layout cs u fa arg body al c SA AB FI W R) as (p & t & L & P).
  destruct (lines_inside _ _ _ _ _ _ _ _ _ _ (proj1 AB) FI (Z.le_refl 0) L) as [_ F]. rewrite Forall_forall in F. specialize (F f IN). unfold inside in F. destruct P as [P _]. lia.
Qed.
Print Assumptions C07_contained.

(** fields of a STRUCT are placed in order without overlap *)
Theorem C07_in_order : forall cs fa arg body al c, StructAlignment fa arg = Ok al -> 1 <= al <= 64 -> all_of fine body -> sum_of weight body + 64 < 2 ^ 31 -> existsb is_org body = false ->
  StructDef cs false fa arg body = Ok c -> forall a f b g d, head c = a ++ f :: b ++ g :: d -> f_off f + f_size f <= f_off g.
Proof.
  intros cs fa arg body al c SA AB FI W NO R. destruct (struct_layout cs false fa arg body al c SA AB FI W R) as (p & t & L & P).
  pose proof (lines_seq _ _ _ _ _ _ _ _ _ (proj1 AB) FI NO L) as SQ. destruct (lines_inside _ _ _ _ _ _ _ _ _ _ (proj1 AB) FI (Z.le_refl 0) L) as [_ F].
  eapply seq_order; [|exact SQ]. apply Forall_impl with (2 := F). unfold inside. intros x. lia.
Qed.
Print Assumptions C07_in_order.

(** a field of power-of-2 size is at a multiple of the smaller of its size and the alignment, with less than that of padding *)
Theorem C07_aligned : forall cs fa arg l1 n k ts l2 al c, StructAlignment fa arg = Ok al -> 1 <= al <= 64 -> (exists j, 0 <= j /\ al = 2 ^ j) ->
  all_of fine (l1 ++ DField n (2 ^ k) ts None :: l2) -> sum_of weight (l1 ++ DField n (2 ^ k) ts None :: l2) + 64 < 2 ^ 31 -> 0 <= k ->
  StructDef cs false fa arg (l1 ++ DField n (2 ^ k) ts None :: l2) = Ok c ->
  exists f1 off f2, head c = f1 ++ SF n off ts None :: f2 /\ (Z.min al (2 ^ k) | off).
Proof.
  intros cs fa arg l1 n k ts l2 al c SA AB AP FI W K R. destruct (struct_layout cs false fa arg _ al c SA AB FI W R) as (p & t & L & P).
  destruct (lines_split _ _ _ _ _ _ _ _ L) as (f1 & fm & f2 & s1 & s2 & E & LN). inversion LN as [n' sz ts' vt ? ? ? off PL| | | | | |]; subst. exists f1, off, f2. split; [exact E|].
  cbn [vt_max] in PL. unfold eff in PL. pose proof (pow2_pos k K). replace (Z.max (2 ^ k) 1) with (2 ^ k) in PL by lia. destruct PL as [_ D]. destruct (min_pow2 al k AP K) as (i & I1 & I2). exact (D i I1 I2).
Qed.
Print Assumptions C07_aligned.

(** the size is a multiple of the smaller of the alignment and the largest scalar *)
Theorem C07_size : forall cs u fa arg body al c k, StructAlignment fa arg = Ok al -> 1 <= al <= 64 -> (exists j, 0 <= j /\ al = 2 ^ j) -> all_of fine body -> sum_of weight body + 64 < 2 ^ 31 ->
  StructDef cs u fa arg body = Ok c -> 0 <= k -> max_mbr_size c = 2 ^ k -> (Z.min al (max_mbr_size c) | total_size c).
Proof.
  intros cs u fa arg body al c k SA AB AP FI W R K M. destruct (struct_layout cs u fa arg _ al c SA AB FI W R) as (p & t & L & P). unfold eff in P. rewrite M in *.
  pose proof (pow2_pos k K). replace (Z.max (2 ^ k) 1) with (2 ^ k) in P by lia. destruct P as [_ D]. destruct (min_pow2 al k AP K) as (i & I1 & I2). exact (D i I1 I2).
Qed.
Print Assumptions C07_size.

(** members of a UNION are at offset 0, its size is that of the largest one, padded *)
Theorem C07_union : forall cs fa arg body al c, StructAlignment fa arg = Ok al -> 1 <= al <= 64 -> all_of fine body -> sum_of weight body + 64 < 2 ^ 31 ->
  StructDef cs true fa arg body = Ok c -> Forall (fun f => f_off f = 0) (head c) /\ max_of f_size (head c) <= total_size c < max_of f_size (head c) + eff al (max_mbr_size c).
Proof.
  intros cs fa arg body al c SA AB FI W R. destruct (struct_layout cs true fa arg _ al c SA AB FI W R) as (p & t & L & P). split; [eapply union_zero; exact L|].
  apply union_extent in L; [|lia]. destruct P as [P _]. unfold max_size in L. pose proof (max_of_nonneg f_size (head c)). lia.
Qed.
Print Assumptions C07_union.

(** ** C08 *)
(** a lookup finds the first declared member of that name, anonymous structures included; *poffset plus its own offset is its place in the whole structure *)
Theorem C08_lookup : forall cs n fl, depths fl <= 31 ->
  match SearchNameInStruct cs n 0 fl with
  | (false, Some (f, p)) => exists a nm o b, members fl = a ++ (nm, o, f) :: b /\ same_name cs n nm /\ (forall e, In e a -> ~ same_name cs n (fst (fst e))) /\ wrap 32 (p + f_off f) = wrap 32 o
  | (false, None) => forall e, In e (members fl) -> ~ same_name cs n (fst (fst e))
  | (true, _) => False
  end.
Proof.
  intros cs n fl D. rewrite Search_find by exact D. pose proof (find_first (matching cs n) (members fl)) as F. destruct (find (matching cs n) (members fl)) as [[[nm o] f]|]; cbn [option_map].
  - destruct F as (a & b & E & M & F). unfold result. cbn [fst snd]. exists a, nm, o, b. split; [exact E|]. split; [apply name_match_iff; exact M|]. split.
    + intros e IN. rewrite Forall_forall in F. apply match_false. apply F. exact IN.
    + unfold wrap. rewrite Zplus_mod_idemp_l. f_equal. lia.
  - intros e IN. rewrite Forall_forall in F. apply match_false. apply F. exact IN.
Qed.
Print Assumptions C08_lookup.
(** deeper nesting: nothing is found wrongly, an error is reported *)
Theorem C08_deep : forall cs n fl, SearchNameInStruct cs n 0 fl = (false, None) -> forall e, In e (members fl) -> ~ same_name cs n (fst (fst e)).
Proof.
  intros cs n fl H e IN. apply (not_found cs n fl); [rewrite H; reflexivity|]. unfold names. apply in_map_iff. exists e. auto.
Qed.
Print Assumptions C08_deep.
(** in a structure that was accepted the names are distinct, they are those of the definition, and every member resolves to itself *)
Theorem C08_members : forall cs u fa arg body c, StructDef cs u fa arg body = Ok c -> all_of (types_distinct cs) body ->
  names (members (head c)) = flat_map dnames body /\ distinct cs (names (members (head c))) /\
  (max_of ddepth body <= 31 -> forall nm o f n, In (nm, o, f) (members (head c)) -> same_name cs n nm ->
     exists p, SearchNameInStruct cs n 0 (head c) = (false, Some (f, p)) /\ wrap 32 (p + f_off f) = wrap 32 o).
Proof.
  intros cs u fa arg body c R T. destruct (struct_names cs u fa arg body c R) as (N & D & DI). split; [exact N|]. split; [apply DI; exact T|].
  intros DP nm o f n IN SN. rewrite Search_find by lia. apply in_split in IN as (a & b & E). rewrite (distinct_find cs (members (head c)) a (nm, o, f) b (DI T) E n SN). cbn [option_map].
  unfold result. cbn [fst snd]. eexists. split; [reflexivity|]. unfold wrap. rewrite Zplus_mod_idemp_l. f_equal. lia.
Qed.
Print Assumptions C08_members.

(** ** examples *)
Definition demo : list def :=
  [DField (str "a") 1 1 None; DField (str "b") 4 12 None; DStruct true [] [DField (str "c") 8 8 None; DStruct false (str "s") [DField (str "x") 2 2 None; DField (str "y") 1 1 None]];
   DField (str "d") 2 2 None; DAlign 16; DField (str "e") 1 1 None].
Example C07_demo : option_map (fun c => (map (fun f => (f_name f, f_off f, f_size f)) (head c), total_size c)) (match StructDef true false 3 None demo with Ok c => Some c | _ => None end)
  = Some ([(str "a", 0, 1); (str "b", 4, 12); ([], 16, 8); (str "d", 24, 2); (str "e", 32, 1)], 40).
Proof. vm_compute. reflexivity. Qed.
Example C07_demo_hyps : all_of fine demo /\ sum_of weight demo + 64 < 2 ^ 31 /\ existsb is_org demo = false /\ max_of ddepth demo <= 31 /\ all_of (types_distinct true) demo.
Proof.
  unfold demo. cbn [all_of fine]. split; [|split; [reflexivity|split; [reflexivity|split; [discriminate|]]]].
  - repeat (split; try lia). exists 4. split; [lia|reflexivity].
  - cbn [all_of types_distinct]. repeat split.
Qed.
Example C08_demo : match StructDef true false 3 None demo with
  | Ok c => map (fun e => (fst (fst e), snd (fst e))) (members (head c)) = [(str "a", 0); (str "b", 4); (str "c", 16); (str "s", 16); (str "d", 24); (str "e", 32)]
            /\ option_map snd (snd (SearchNameInStruct true (str "s") 0 (head c))) = Some 16
  | _ => False end.
Proof. vm_compute. auto. Qed.
(** a name that is hidden in an anonymous structure cannot be defined again *)
Example C08_clash : StructDef false false 0 None [DStruct true [] [DField (str "aB") 1 1 None]; DField (str "Ab") 1 1 None] = Err
  /\ StructDef false false 0 None [DField (str "Ab") 1 1 None; DStruct true [] [DField (str "aB") 1 1 None]] = Err.
Proof. vm_compute. auto. Qed.

(** ** what does not hold *)
(** sizes that are no power of 2 are rounded with a bit mask: a TBYTE field is at offset 2 *)
Theorem C07_tbyte_refuted : ~ (forall cs fa arg body c al f, StructAlignment fa arg = Ok al -> all_of fine body -> StructDef cs false fa arg body = Ok c -> In f (head c) -> f_size f < al -> (f_size f | f_off f)).
Proof.
  intros H. specialize (H true 0 (Some 16) [DField (str "a") 1 1 None; DField (str "t") 10 10 None]).
  destruct (StructDef true false 0 (Some 16) [DField (str "a") 1 1 None; DField (str "t") 10 10 None]) as [c| |] eqn:E; [|vm_compute in E; discriminate|vm_compute in E; discriminate].
  specialize (H c 16 (SF (str "t") 2 10 None) eq_refl). assert (D : (10 | 2)).
  { apply H; [cbn [all_of fine]; repeat (split; try lia)|reflexivity| |cbn [f_size]; lia]. vm_compute in E. injection E as <-. vm_compute. auto. }
  destruct D as [z D]. lia.
Qed.
Print Assumptions C07_tbyte_refuted.
(** a negative ORG in an aligned structure destroys the size: a 10-byte field in a structure of 1 byte *)
Theorem C07_negative_org_refuted : ~ (forall cs fa arg body c f, StructDef cs false fa arg body = Ok c -> In f (head c) -> f_off f + f_size f <= total_size c).
Proof.
  intros H. specialize (H true 0 (Some 2) [DField (str "a") 1 10 None; DOrg (-4); DField (str "b") 1 1 None]).
  destruct (StructDef true false 0 (Some 2) [DField (str "a") 1 10 None; DOrg (-4); DField (str "b") 1 1 None]) as [c| |] eqn:E; [|vm_compute in E; discriminate|vm_compute in E; discriminate].
  specialize (H c (SF (str "a") 0 10 None) eq_refl). vm_compute in E. injection E as <-. cbn [head total_size f_off f_size] in H. specialize (H (or_introl eq_refl)). apply H. reflexivity.
Qed.
Print Assumptions C07_negative_org_refuted.
