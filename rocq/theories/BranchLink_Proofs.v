(** Proofs about branches to symbols that the linker resolves. *)
From Verif Require Import Base.
From Verif Require Import Mem_Model.
From Verif Require Import Branch_Model Branch_Spec Branch_Proofs BranchPass_Proofs.

#[local] Arguments i32 : simpl never.
#[local] Arguments wrap : simpl never.
#[local] Arguments swrap : simpl never.
#[local] Arguments le_bytes : simpl never.
#[local] Arguments zlen : simpl never.

Lemma codegen_data e p k h d : codegen e p k = Ok (h, d) ->
  exists n, d = le_bytes n (wrap 32 (c_data k)) /\ (n <= 6)%nat /\ forall x, codegen e p (set_data k x) = Ok (h, le_bytes n (wrap 32 x)).
Proof.
  unfold codegen. cbn [set_data c_type c_isfar c_tok c_opsiz c_pre c_data].
  destruct (c_type k) as [t|]; [|discriminate].
  destruct (find_row t _) as [r|]; [|discriminate].
  destruct (r_cpu r >? e_cpu e); [discriminate|].
  destruct (match p with NoPrefix => _ | _ => _ end) as [pfx| |]; try discriminate. cbn [bindr].
  destruct (_ && (e_cpu e <? P_386)); [discriminate|]. intros H.
  exists (data_size t r). apply (f_equal (fun r => match r with Ok x => x | _ => (h, d) end)) in H; apply pair_equal_spec in H as [<- <-].
  split; [reflexivity|]. split; [|reflexivity]. unfold data_size. destruct (r_op r), t; lia.
Qed.


Definition nocast (o : opnd) : opnd := {| o_explicit := o_explicit o; o_mt := o_mt o; o_short := o_short o; o_ofs := None; o_value := o_value o |}.
Definition with_mt (s : sym) (m : memtype) : sym :=
  {| s_state := s_state s; s_weak := s_weak s; s_mt := m; s_offset := s_offset s; s_met := s_met s; s_ofs := s_ofs s;
     s_hasseg := s_hasseg s; s_inseg := s_inseg s; s_flat := s_flat s; s_group := s_group s |}.
Definition push_sym (t : token) (o : opnd) (s : sym) : sym := with_mt s (if pushx t o s then MT_FAR else MT_NEAR).

Inductive xshape (e : env) (t : token) (o : opnd) (s : sym) (k : ci) : Prop :=
| x_short : is_call t = false -> c_isfar k = false -> c_pre k = [] -> c_tok k = t -> c_opsiz k = false -> c_type k = Some I8 ->
    c_fix k = Some FIX_RELOFF8 -> xshape e t o s k
| x_near o' : o' = o \/ o' = nocast o -> IS_XCX_BRANCH t = false -> c_isfar k = false ->
    c_pre k = (if pushx t o s then [0x0E] else []) -> c_tok k = t -> c_opsiz k = ops e o' -> c_type k = Some (near_type e o') ->
    c_fix k = Some (reloff (near_type e o')) \/ c_fix k = Some FIX_RELOFF8 -> xshape e t o s k
| x_ext c : t = JCC c -> e_cpu e < P_386 -> e_ljmp e = true -> c_isfar k = false ->
    c_pre k = [Z.lxor (0x70 + cc_code c) 1; if ofs_eqb (e_ofs e) USE16 then 3 else 5] -> c_tok k = JMP -> c_opsiz k = false ->
    c_type k = Some I16 -> c_fix k = Some FIX_RELOFF16 -> xshape e t o s k
| x_far w : IS_JMPCALL t = true -> c_isfar k = true -> c_pre k = [] -> c_tok k = t -> c_opsiz k = w ->
    c_type k = Some (if IS_OPER_32 e w then I48 else I32) -> c_fix k = Some (if IS_OPER_32 e w then FIX_PTR32 else FIX_PTR16) -> xshape e t o s k
| x_farj c w : t = JCC c -> (e_cpu e < P_386 -> w = false) -> c_isfar k = true -> e_ljmp e = true ->
    c_pre k = [Z.lxor (0x70 + cc_code c) 1; if w then (if ofs_eqb (e_ofs e) USE16 then 8 else 6) else (if ofs_eqb (e_ofs e) USE16 then 5 else 7)] ->
    c_tok k = JMP -> c_opsiz k = w ->
    (P_386 <= e_cpu e \/ e_ofs e = USE16 -> c_type k = Some (if IS_OPER_32 e w then I48 else I32) /\ c_fix k = Some (if IS_OPER_32 e w then FIX_PTR32 else FIX_PTR16)) ->
    xshape e t o s k.

Lemma ext_shape e t o s k : fixup_part e SYM_EXTERNAL o s (start_ci t o) = Ok k ->
  c_data k = i32 (o_value o) /\ xshape e t o s k.
Proof.
  unfold fixup_part. cbn [start_ci c_tok c_mt]. fold (mt0 o).
  replace (is_call t && mt_eqb (mt0 o) MT_EMPTY && mt_eqb (s_mt s) MT_FAR && s_hasseg s && (s_inseg s || s_group s)) with (pushx t o s)
    by (unfold pushx, pushes; reflexivity).
  set (k0 := if pushx t o s then _ else _).
  assert (P0 : c_pre k0 = (if pushx t o s then [0x0E] else []) /\ c_tok k0 = t /\ c_data k0 = i32 (o_value o) /\
               c_isfar k0 = false /\ c_opsiz k0 = false /\ (is_call t = false -> pushx t o s = false)).
  { unfold k0. destruct (pushx t o s) eqn:Q; cbn; repeat split; try reflexivity; try (intros C; unfold pushx, pushes in Q; rewrite C in Q; discriminate). }
  assert (M0 : pushx t o s = true -> c_mt k0 = MT_NEAR) by (unfold k0; destruct (pushx t o s); [reflexivity|discriminate]).
  clearbody k0. destruct P0 as (P0 & T0 & D0 & F0 & O0 & PC).
  set (k1 := if mt_eqb (c_mt k0) MT_EMPTY && _ && _ then _ else k0).
  assert (P1 : c_pre k1 = (if pushx t o s then [0x0E] else []) /\ c_tok k1 = t /\ c_data k1 = i32 (o_value o) /\ c_opsiz k1 = false /\
               (c_isfar k1 = true -> IS_JMPCALL t = true) /\ (pushx t o s = true -> c_mt k1 = MT_NEAR /\ c_isfar k1 = false)).
  { unfold k1. rewrite T0. destruct (pushx t o s) eqn:Q.
    - rewrite (M0 eq_refl). cbn [mt_eqb andb]. rewrite F0. repeat split; auto; discriminate.
    - destruct (mt_eqb (c_mt k0) MT_EMPTY && negb (mt_eqb (o_mt o) MT_EMPTY) && negb (o_short o)).
      + destruct (o_mt o), (IS_JMPCALL t); cbn; repeat split; auto; try congruence.
      + repeat split; auto; congruence. }
  clearbody k1. clear P0 T0 D0 F0 O0 M0 k0. destruct P1 as (P1 & T1 & D1 & O1 & F1 & M1). rewrite T1.
  destruct (IS_JMPCALL t && (c_isfar k1 || mt_eqb (c_mt k1) MT_FAR)) eqn:FAR.
  - apply andb_prop in FAR as [JC FA]. cbn [set_far c_mt].
    assert (NP : pushx t o s = false).
    { destruct (pushx t o s); [|reflexivity]. destruct (M1 eq_refl) as [M F]. rewrite M, F in FA. discriminate. }
    rewrite NP in P1. intros H.
    assert (K : k = far_ptr e (set_opsiz (set_far k1 true) (far_opsiz e o s))).
    { destruct (c_mt k1); try discriminate; cbn [mt_eqb andb] in H; try (destruct (o_explicit o || o_short o); [discriminate|]); congruence. }
    subst k. unfold far_ptr. cbn [set_opsiz c_opsiz]. split.
    + destruct (IS_OPER_32 e (far_opsiz e o s)); exact D1.
    + apply x_far with (w := far_opsiz e o s); try assumption; destruct (IS_OPER_32 e (far_opsiz e o s)); cbn; auto.
  - assert (FF : c_isfar k1 = false).
    { destruct (c_isfar k1); [|reflexivity]. rewrite (F1 eq_refl) in FAR. discriminate. }
    assert (OI : set_opsiz k1 false = k1) by (rewrite <- O1; destruct k1; reflexivity).
    assert (JX : forall b, c_pre (jumpExtend e (set_opsiz k1 b) true) = c_pre k1 ++ [Z.lxor (match near_rows t with r :: _ => r_code r | [] => 0 end) 1;
                   if b then (if ofs_eqb (e_ofs e) USE16 then 8 else 6) else (if ofs_eqb (e_ofs e) USE16 then 5 else 7)]).
    { intros b. unfold jumpExtend. cbn [set_opsiz c_pre c_tok c_opsiz]. rewrite T1. destruct b, (ofs_eqb (e_ofs e) USE16); reflexivity. }
    destruct t as [| |c| | | | | | | | | | | | | | | | | | ].
    4-21: rewrite (PC eq_refl) in P1; destruct (negb (mt_eqb (c_mt k1) MT_EMPTY) && negb (o_short o)); [discriminate|]; intros H;
      assert (K : k = set_fix (set_type k1 I8) FIX_RELOFF8) by congruence; subst k; (split; [exact D1|]); apply x_short; cbn; auto.
    + (* CALL *)
      destruct (o_short o); [discriminate|]. destruct (c_mt k1); try discriminate; intros H.
      * assert (K : k = set_fix (set_type k1 (near_type e (nocast o))) (reloff (near_type e (nocast o)))).
        { unfold near_type, nocast. cbn [o_ofs]. destruct (e_ofs e); congruence. }
        subst k. split; [exact D1|]. apply x_near with (o' := nocast o); cbn; auto.
      * assert (K : k = set_fix (set_type (set_opsiz k1 (ops e o)) (near_type e o)) (reloff (near_type e o))).
        { unfold ops. destruct (o_ofs o); [congruence|]. rewrite OI. congruence. }
        subst k. split; [exact D1|]. apply x_near with (o' := o); cbn; auto.
    + (* JMP *)
      destruct (c_mt k1); try discriminate; intros H.
      * assert (K : k = set_fix (set_type k1 I8) FIX_RELOFF8) by congruence. subst k. split; [exact D1|].
        rewrite (PC eq_refl) in P1. apply x_short; cbn; auto.
      * assert (K : k = set_fix (set_type (set_opsiz k1 (ops e o)) (near_type e o)) (reloff (near_type e o))).
        { unfold ops. destruct (o_ofs o); [congruence|]. rewrite OI. congruence. }
        subst k. split; [exact D1|]. apply x_near with (o' := o); cbn; auto.
    + (* Jcc *)
      pose proof (PC eq_refl) as NP. pose proof P1 as PN. rewrite NP in PN.
      destruct (e_cpu e >=? P_386) eqn:CPU.
      * destruct (c_mt k1); try discriminate; intros H.
        -- assert (K : k = set_fix (set_type k1 I8) FIX_RELOFF8) by congruence. subst k. split; [exact D1|]. apply x_short; cbn; auto.
        -- destruct (o_ofs o) as [x|] eqn:OF.
           ++ assert (K : k = set_fix (set_type (set_opsiz k1 (ops e o)) (near_type e o)) FIX_RELOFF8) by (unfold ops; rewrite OF; congruence).
              subst k. split; [exact D1|]. apply x_near with (o' := o); cbn; auto.
           ++ assert (K : k = set_fix (set_type k1 (near_type e o)) (reloff (near_type e o))) by congruence.
              subst k. split; [exact D1|]. apply x_near with (o' := o); cbn; auto. unfold ops. rewrite OF. exact O1.
        -- destruct (e_ljmp e) eqn:LJ; [|discriminate].
           assert (K : k = far_ptr e (set_far (jumpExtend e (set_opsiz k1 (far_opsiz e o s)) true) true)) by congruence.
           assert (JX' := JX (far_opsiz e o s)). rewrite PN in JX'. cbn [app near_rows mkrow r_code] in JX'.
           subst k. split; [unfold far_ptr; destruct (IS_OPER_32 _ _); exact D1|].
           apply x_farj with (c := c) (w := far_opsiz e o s); auto.
           ++ lia.
           ++ unfold far_ptr. destruct (IS_OPER_32 _ _); reflexivity.
           ++ rewrite <- JX'. unfold far_ptr. destruct (IS_OPER_32 _ _); reflexivity.
           ++ unfold far_ptr. destruct (IS_OPER_32 _ _); reflexivity.
           ++ unfold far_ptr. destruct (IS_OPER_32 _ _); reflexivity.
           ++ intros _. unfold far_ptr. cbn [set_far jumpExtend set_opsiz c_opsiz]. destruct (IS_OPER_32 e (far_opsiz e o s)); split; reflexivity.
      * destruct (c_mt k1); try discriminate; intros H.
        -- assert (K : k = set_fix (set_type k1 I8) FIX_RELOFF8) by congruence. subst k. split; [exact D1|]. apply x_short; cbn; auto.
        -- destruct (e_ljmp e) eqn:LJ; [|discriminate].
           assert (K : k = set_fix (set_type (jumpExtend e k1 false) I16) FIX_RELOFF16) by congruence. subst k. split; [exact D1|].
           apply x_ext with (c := c); cbn; auto; try lia. rewrite PN, T1. cbn. destruct (ofs_eqb (e_ofs e) USE16); reflexivity.
        -- destruct (e_ljmp e) eqn:LJ; [|discriminate].
           assert (K : k = set_fix (set_type (set_far (jumpExtend e k1 true) true) I32) FIX_PTR16) by congruence. subst k. split; [exact D1|].
           apply x_farj with (c := c) (w := false); cbn; auto.
           ++ rewrite PN, T1, O1. cbn. destruct (ofs_eqb (e_ofs e) USE16); reflexivity.
           ++ intros [C|C]; [lia|]. unfold IS_OPER_32. rewrite C. auto.
Qed.

(** * Lengths *)
Ltac got G := apply (f_equal (fun r => match r with Ok x => x | _ => ([], []) end)) in G; apply pair_equal_spec in G as [<- <-].

Lemma len_short e p t k h d : available (e_ofs e) t = true -> is_call t = false -> c_isfar k = false -> c_pre k = [] -> c_tok k = t -> c_opsiz k = false ->
  c_type k = Some I8 -> codegen e p k = Ok (h, d) -> zlen h = 1 + b2z (adr e t) + b2z (is_bnd p) /\ zlen d = 1.
Proof.
  intros AV NC F P T0 O Y G. unfold codegen in G. rewrite Y, F, T0, P, O in G. unfold adr.
  destruct t; try discriminate NC; cbn [near_rows find_row find accepts r_op r_cpu mkrow r_bnd r_b1] in G;
    (destruct (_ >? e_cpu e); [discriminate|]); destruct p; cbn [bindr] in G; try discriminate G;
    cbn [andb first_b1 near_rows mkrow r_b1 b1_eqb is_bnd b2z] in *; destruct (e_ofs e); try discriminate AV; cbn [ofs_eqb negb andb orb b2z app] in *; got G;
    unfold data_size; cbn [r_op mkrow]; rewrite ?zlen_cons, ?zlen_nil, ?zlen_le; lia.
Qed.

Lemma len_near e p t (q : bool) o k h d : IS_XCX_BRANCH t = false -> c_isfar k = false -> c_pre k = (if q then [0x0E] else []) -> c_tok k = t -> c_opsiz k = ops e o ->
  c_type k = Some (near_type e o) -> codegen e p k = Ok (h, d) ->
  zlen h = b2z q + 1 + b2z (ops e o) + b2z (is_bnd p) + b2z (IS_JCC t) /\ zlen d = Z.of_nat (nat_of (near_type e o)).
Proof.
  intros XC F P T0 O Y G. unfold codegen in G. rewrite Y, F, T0, P, O in G. clear Y F P O.
  assert (TY : near_type e o = I16 \/ near_type e o = I32) by (unfold near_type; destruct (o_ofs o) as [[]|], (e_ofs e); auto).
  destruct t; try discriminate XC; destruct TY as [E|E]; rewrite E in G |- *; cbn [near_rows find_row find accepts r_op r_cpu mkrow r_bnd r_b1] in G;
    (destruct (_ >? e_cpu e); [discriminate|]); destruct p; cbn [bindr] in G; try discriminate G;
    destruct (ops e o), (e_cpu e <? P_386); cbn [andb] in G; try discriminate G; got G;
    destruct q; cbn [app is_bnd b2z IS_JCC nat_of]; unfold data_size; cbn [r_op mkrow]; rewrite ?zlen_cons, ?zlen_nil, ?zlen_le; cbn; lia.
Qed.

Lemma le_bytes_mod n a b : a mod 2 ^ (8 * Z.of_nat n) = b mod 2 ^ (8 * Z.of_nat n) -> le_bytes n a = le_bytes n b.
Proof.
  revert a b. induction n as [|n IH]; intros a b H; [reflexivity|].
  replace (8 * Z.of_nat (S n)) with (8 * Z.of_nat n + 8) in H by lia. rewrite Z.pow_add_r in H by lia.
  assert (P : 0 < 2 ^ (8 * Z.of_nat n)) by (apply Z.pow_pos_nonneg; lia).
  unfold le_bytes; fold le_bytes. cbn [le_bytes].
  assert (A : a mod 2 ^ 8 = b mod 2 ^ 8).
  { rewrite Z.mul_comm in H. rewrite !Z.rem_mul_r in H by lia.
    pose proof (Z.mod_pos_bound a (2 ^ 8) ltac:(lia)). pose proof (Z.mod_pos_bound b (2 ^ 8) ltac:(lia)).
    pose proof (Z.mod_pos_bound (a / 2 ^ 8) _ P). pose proof (Z.mod_pos_bound (b / 2 ^ 8) _ P). change (2 ^ 8) with 256 in *. nia. }
  assert (B : (a / 2 ^ 8) mod 2 ^ (8 * Z.of_nat n) = (b / 2 ^ 8) mod 2 ^ (8 * Z.of_nat n)).
  { rewrite Z.mul_comm in H. rewrite !Z.rem_mul_r in H by lia. rewrite A in H. change (2 ^ 8) with 256 in *. lia. }
  change (2 ^ 8) with 256 in *. rewrite A. f_equal. apply IH. exact B.
Qed.

Lemma le_val_wrap n a : (1 <= n <= 4)%nat -> le_val (le_bytes n (wrap 32 a)) = a mod 2 ^ (8 * Z.of_nat n).
Proof. intros N. rewrite le_val_le_bytes. unfold wrap at 1. apply mod_wrap32. exact N. Qed.

(** a relative fixup in a field of its own size *)
Lemma link_rel f n loc v sel sym : rel_size f = Some n -> link f loc (le_bytes n (wrap 32 (i32 v))) sel sym = le_bytes n (wrap 32 (i32 (v + sym - (loc + Z.of_nat n)))).
Proof.
  intros H. assert (N : (1 <= n <= 4)%nat) by (destruct f; cbn in H; try discriminate; assert (Q : Some n <> None) by discriminate; injection H as <-; lia).
  assert (L : link f loc (le_bytes n (wrap 32 (i32 v))) sel sym = le_bytes n (le_val (le_bytes n (wrap 32 (i32 v))) + sym - (loc + Z.of_nat n))).
  { destruct f; cbn in H; try discriminate; injection H as <-; unfold link; change (Z.of_nat 1) with 1; change (Z.of_nat 2) with 2; change (Z.of_nat 4) with 4;
      rewrite skipn_all2, app_nil_r by (rewrite le_bytes_length; lia); rewrite firstn_all2 by (rewrite le_bytes_length; lia); reflexivity. }
  rewrite L, le_val_wrap by exact N. apply le_bytes_mod. rewrite mod_wrap32 by exact N.
  assert (I : forall x, i32 x mod 2 ^ (8 * Z.of_nat n) = x mod 2 ^ (8 * Z.of_nat n)) by (intros x; apply (mod_down _ 32); [lia|apply i32_mod]).
  rewrite !I.
  assert (P : 0 < 2 ^ (8 * Z.of_nat n)) by (apply Z.pow_pos_nonneg; lia).
  replace (v mod 2 ^ (8 * Z.of_nat n) + sym - (loc + Z.of_nat n)) with (v mod 2 ^ (8 * Z.of_nat n) + (sym - (loc + Z.of_nat n))) by lia.
  rewrite Zplus_mod_idemp_l. f_equal. lia.
Qed.

Lemma pushes_sym t o s : pushes t o (push_sym t o s) = pushx t o s.
Proof.
  unfold push_sym. destruct (pushx t o s) eqn:Q; unfold pushes; cbn [with_mt s_mt mt_eqb].
  - unfold pushx, pushes in Q. destruct (is_call t), (mt_eqb (mt0 o) MT_EMPTY); try discriminate; reflexivity.
  - apply andb_false_r.
Qed.
Lemma set_data_id k : set_data k (c_data k) = k. Proof. destruct k; reflexivity. Qed.

(** relative fixups *)
Theorem branch_links_near e p cur t o s h d f a sel S m :
  target_state cur o s = Ok (SYM_EXTERNAL, a) -> available (e_ofs e) t = true ->
  (p = BND -> P_386 <= e_cpu e) -> (e_ofs e <> USE16 -> P_386 <= e_cpu e) ->
  (pushx t o s = true -> e_ofs e <> USE64) ->
  branch e p cur t o s = Ok (h, d, Some f) ->
  rel_size f = Some (length d) ->
  let T := S + o_value o in
  let next := cur + zlen (h ++ d) in
  cast_ok e o T next -> (e_ofs e = USE64 -> - 2 ^ 31 <= T - next < 2 ^ 31) ->
  (f = FIX_RELOFF8 -> -128 <= T - next <= 127) ->
  run 3 (e_ofs e) m cur (h ++ link f (cur + zlen h) d sel S) false =
    Some (means (e_ofs e) t (pushx t o s) m (T mod 2 ^ bits (e_ofs e)) (next mod 2 ^ bits (e_ofs e)), None).
Proof.
  intros TS AV BN CP PU H RS T next CA X R8.
  unfold branch, process_branch in H. rewrite TS in H. cbn [bindr andb] in H.
  destruct (fixup_part e SYM_EXTERNAL o s (start_ci t o)) as [k| |] eqn:FX; try discriminate. cbn [bindr] in H.
  destruct (codegen e p k) as [[h' d']| |] eqn:G; try discriminate. cbn [bindr] in H.
  assert (h' = h /\ d' = d /\ c_fix k = Some f) as (-> & -> & KF) by (repeat split; congruence). clear H.
  apply ext_shape in FX as (D & SH).
  destruct (codegen_data _ _ _ _ _ G) as (n & DN & _ & GX). rewrite D in DN.
  assert (LN : length d = n) by (rewrite DN; apply le_bytes_length). rewrite LN in RS.
  assert (LD : zlen d = Z.of_nat n) by (rewrite DN; apply zlen_le).
  assert (LK : link f (cur + zlen h) d sel S = le_bytes n (wrap 32 (i32 (T - next)))).
  { rewrite DN, (link_rel f n) by exact RS. f_equal. f_equal. f_equal. unfold T, next. rewrite zlen_app, LD. lia. }
  rewrite LK. specialize (GX (i32 (T - next))).
  set (k' := set_data k (i32 (T - next))) in *.
  assert (ZL : zlen (h ++ le_bytes n (wrap 32 (i32 (T - next)))) = zlen (h ++ d)) by (rewrite !zlen_app, zlen_le, LD; reflexivity).
  assert (NX : next = cur + zlen (h ++ le_bytes n (wrap 32 (i32 (T - next))))) by (rewrite ZL; reflexivity).
  rewrite <- pushes_sym.
  destruct SH as [NC FA P TK O Y FF | o' OO XC FA P TK O Y FF | c TC CC LJ FA P TK O Y FF | w JC FA P TK O Y FF | c w TC CC FA LJ P TK O YF].
  - destruct (len_short e p t k h d AV NC FA P TK O Y G) as [LH LD1].
    assert (E8 : f = FIX_RELOFF8) by congruence. specialize (R8 E8).
    replace (next mod 2 ^ bits (e_ofs e)) with ((cur + zlen (h ++ le_bytes n (wrap 32 (i32 (T - next))))) mod 2 ^ bits (e_ofs e)) by (rewrite <- NX; reflexivity). eapply (run_short e p cur t o (push_sym t o s) T k'); try eassumption.
    + cbn [k' set_data c_data]. f_equal. unfold next. rewrite zlen_app, LH, LD1. lia.
    + cbn [k' set_data c_data]. rewrite i32_small by lia. exact R8.
    + intros U. rewrite ZL. apply X. exact U.
  - assert (PO : pushx t o' s = pushx t o s) by (destruct OO as [-> | ->]; reflexivity).
    assert (PY : push_sym t o' s = push_sym t o s) by (unfold push_sym; rewrite PO; reflexivity).
    assert (VO : o_value o' = o_value o) by (destruct OO as [-> | ->]; reflexivity).
    destruct (len_near e p t (pushx t o s) o' k h d XC FA P TK O Y G) as [LH LD1].
    assert (PE : pushes t o (push_sym t o s) = pushes t o' (push_sym t o s)) by (destruct OO as [-> | ->]; reflexivity).
    assert (CA' : cast_ok e o' T next).
    { destruct OO as [-> | ->]; [exact CA|]. left. reflexivity. }
    rewrite PE. replace (next mod 2 ^ bits (e_ofs e)) with ((cur + zlen (h ++ le_bytes n (wrap 32 (i32 (T - next))))) mod 2 ^ bits (e_ofs e)) by (rewrite <- NX; reflexivity). eapply (run_near e p cur t o' (push_sym t o s) T k'); try eassumption.
    + rewrite <- PE, pushes_sym. exact P.
    + cbn [k' set_data c_data]. rewrite <- PE, pushes_sym. f_equal. unfold next. rewrite zlen_app, LH, LD1. lia.
    + rewrite <- PE, pushes_sym. exact PU.
    + rewrite <- NX. exact CA'.
    + intros U. rewrite <- NX. apply X. exact U.
  - assert (M : e_ofs e = USE16) by (destruct (e_ofs e); [reflexivity| |]; exfalso; assert (P_386 <= e_cpu e) by (apply CP; discriminate); lia).
    assert (NB : p <> BND) by (intros ->; specialize (BN eq_refl); lia).
    subst t. replace (next mod 2 ^ bits (e_ofs e)) with ((cur + zlen (h ++ le_bytes n (wrap 32 (i32 (T - next))))) mod 2 ^ bits (e_ofs e)) by (rewrite <- NX; reflexivity).
    assert (NT : near_type e (nocast o) = I16) by (unfold near_type; cbn; rewrite M; reflexivity).
    assert (LL : zlen (h ++ d) = 5).
    { unfold codegen in G. rewrite Y, FA, TK, P, O in G. cbn in G. destruct (P_86 >? e_cpu e); [discriminate|].
      destruct p; try congruence; cbn in G; [|discriminate]. got G. reflexivity. }
    eapply (run_ext e p cur c (nocast o) (push_sym (JCC c) o s) T k'); try eassumption.
    + rewrite NT. exact Y.
    + cbn [k' set_data c_data]. f_equal. rewrite NT. unfold next. rewrite LL. unfold ops. cbn. destruct p; try congruence; cbn; lia.
  - exfalso. assert (f = if IS_OPER_32 e w then FIX_PTR32 else FIX_PTR16) by congruence. subst f. destruct (IS_OPER_32 e w); discriminate RS.
  - exfalso. assert (Q : P_386 <= e_cpu e \/ e_ofs e = USE16) by (destruct (e_ofs e); [right; reflexivity| |]; left; apply CP; discriminate).
    destruct (YF Q) as [_ F2]. assert (f = if IS_OPER_32 e w then FIX_PTR32 else FIX_PTR16) by congruence. subst f. destruct (IS_OPER_32 e w); discriminate RS.
Qed.

(** * Far pointers *)
Lemma number_le n m v r : length r = m -> number n (le_bytes n v ++ r) = Some (v mod 2 ^ (8 * Z.of_nat n), r).
Proof.
  intros L. unfold number. rewrite app_length, le_bytes_length. destruct (n + length r <? n)%nat eqn:B; [apply Nat.ltb_lt in B; lia|].
  rewrite firstn_app, skipn_app, le_bytes_length, Nat.sub_diag. cbn [firstn skipn].
  rewrite firstn_all2, skipn_all2 by (rewrite le_bytes_length; lia). rewrite app_nil_r, le_val_le_bytes. reflexivity.
Qed.

Lemma firstn_le n m v : (n <= m)%nat -> firstn n (le_bytes m v) = le_bytes n v.
Proof.
  revert m v. induction n as [|n IH]; intros m v L; [reflexivity|]. destruct m as [|m]; [lia|].
  unfold le_bytes; fold le_bytes. cbn [firstn]. f_equal. apply IH. lia.
Qed.

Lemma link_far (b : bool) loc n v sel S : n = (if b then 6 else 4)%nat -> 0 <= sel < 2 ^ 16 -> 0 <= S + v < 2 ^ (if b then 32 else 16) ->
  link (if b then FIX_PTR32 else FIX_PTR16) loc (le_bytes n (wrap 32 (i32 v))) sel S =
  le_bytes (if b then 4 else 2) (S + v) ++ le_bytes 2 sel.
Proof.
  intros -> HS HT.
  assert (Q : forall j, (1 <= j <= 4)%nat -> le_bytes j (le_val (le_bytes j (wrap 32 (i32 v))) + S) = le_bytes j (S + v)).
  { intros j J. apply le_bytes_mod. rewrite le_val_wrap by exact J. rewrite Zplus_mod_idemp_l. rewrite (Z.add_comm S).
    rewrite <- Zplus_mod_idemp_l, (mod_down _ 32 (i32 v) v), Zplus_mod_idemp_l; [reflexivity|lia|apply i32_mod]. }
  destruct b; cbn [link]; rewrite firstn_le by lia; rewrite Q by lia; reflexivity.
Qed.

Lemma far_dec mode (p66 : bool) f w T sel : mode <> USE64 -> opsize mode p66 = Some w -> 0 <= sel < 2 ^ 16 -> 0 <= T < 2 ^ w ->
  far f mode (opsize mode p66) (le_bytes (if w =? 16 then 2 else 4) T ++ le_bytes 2 sel) = Some (f sel T, []).
Proof.
  intros M O HS HT. rewrite O. unfold far.
  assert (W : w = 16 \/ w = 32) by (destruct mode, p66; cbn in O; try congruence; assert (Q : Some w <> None) by discriminate; injection O as <-; auto).
  assert (E : number (if w =? 16 then 2 else 4) (le_bytes (if w =? 16 then 2 else 4) T ++ le_bytes 2 sel) = Some (T, le_bytes 2 sel)).
  { rewrite (number_le _ 2) by apply le_bytes_length. rewrite Z.mod_small; [reflexivity|]. destruct W as [-> | ->]; exact HT. }
  rewrite E. rewrite <- (app_nil_r (le_bytes 2 sel)), (number_le 2 0) by reflexivity. rewrite Z.mod_small by exact HS. destruct mode; congruence.
Qed.

Lemma run_farptr (w32 bnd : bool) (pre : list Z) mode m cur cs t T sel n0 :
  mode <> USE64 -> IS_JMPCALL t = true -> 0 <= sel < 2 ^ 16 -> 0 <= T < 2 ^ (if w32 then 32 else 16) ->
  let p66 := match mode with USE16 => w32 | _ => negb w32 end in
  let code := (if bnd then [0xF2] else []) ++ (if p66 then [0x66] else []) ++ [if is_call t then 0x9A else 0xEA] ++
              le_bytes (if w32 then 4 else 2) T ++ le_bytes 2 sel in
  run (S n0) mode m cur code cs =
    Some (match t with CALL => {| dest := T; ret := Some (cur + zlen code); pushed_cs := true; count := rcx m |}
          | _ => {| dest := T; ret := None; pushed_cs := cs; count := rcx m |} end, Some sel).
Proof.
  intros M JC HS HT p66 code.
  assert (O : opsize mode p66 = Some (if w32 then 32 else 16)) by (unfold p66; destruct mode, w32; cbn; congruence).
  assert (FD : forall f, far f mode (opsize mode p66) (le_bytes (if w32 then 4 else 2) T ++ le_bytes 2 sel) = Some (f sel T, [])).
  { intros f. pose proof (far_dec mode p66 f _ T sel M O HS HT) as FD. destruct w32; exact FD. }
  assert (DC : decode mode false false code = Some ((if is_call t then IFarCall else IFarJmp) sel T, [])).
  { unfold code. clearbody p66. destruct bnd, p66, t; try discriminate JC; cbn [is_call app];
      rewrite ?dec_F2, ?dec_66, ?dec_EA, ?dec_9A; apply FD. }
  assert (NE : exists b r, code = b :: r).
  { unfold code. destruct bnd, p66; cbn [app]; do 2 eexists; reflexivity. }
  destruct NE as (b & r & NE). rewrite NE in *. rewrite run_cons, DC. cbv beta iota zeta.
  destruct t; try discriminate JC; cbn [is_call]; rewrite ?zlen_nil, ?Z.sub_0_r; reflexivity.
Qed.

Theorem branch_links_far e p cur t o s h d f a sel S m :
  target_state cur o s = Ok (SYM_EXTERNAL, a) -> e_ofs e <> USE64 ->
  (e_ofs e <> USE16 -> P_386 <= e_cpu e) -> (IS_JCC t = true -> p <> BND) ->
  branch e p cur t o s = Ok (h, d, Some f) -> rel_size f = None ->
  let T := S + o_value o in
  let next := cur + zlen (h ++ d) in
  0 <= sel < 2 ^ 16 -> 0 <= T < 2 ^ (8 * (fix_size f - 2)) ->
  zlen d = fix_size f /\
  run 3 (e_ofs e) m cur (h ++ link f (cur + zlen h) d sel S) false = Some (far_means t m T sel next (next mod 2 ^ bits (e_ofs e))).
Proof.
  intros TS M64 CP NB H RS T next HS HT.
  unfold branch, process_branch in H. rewrite TS in H. cbn [bindr andb] in H.
  destruct (fixup_part e SYM_EXTERNAL o s (start_ci t o)) as [k| |] eqn:FX; try discriminate. cbn [bindr] in H.
  destruct (codegen e p k) as [[h' d']| |] eqn:G; try discriminate. cbn [bindr] in H.
  assert (h' = h /\ d' = d /\ c_fix k = Some f) as (-> & -> & KF) by (repeat split; congruence). clear H.
  apply ext_shape in FX as (D & SH).
  assert (Q : P_386 <= e_cpu e \/ e_ofs e = USE16) by (destruct (e_ofs e); [right; reflexivity| |]; left; apply CP; discriminate).
  assert (GEN : forall pre tk w, c_pre k = pre -> c_tok k = tk -> IS_JMPCALL tk = true -> c_isfar k = true -> c_opsiz k = w ->
     c_type k = Some (if IS_OPER_32 e w then I48 else I32) -> f = (if IS_OPER_32 e w then FIX_PTR32 else FIX_PTR16) ->
     zlen d = fix_size f /\ w = (match e_ofs e with USE16 => IS_OPER_32 e w | _ => negb (IS_OPER_32 e w) end) /\
     h ++ link f (cur + zlen h) d sel S = pre ++ (if is_bnd p then [0xF2] else []) ++ (if w then [0x66] else []) ++ [if is_call tk then 0x9A else 0xEA] ++
        le_bytes (if IS_OPER_32 e w then 4 else 2) T ++ le_bytes 2 sel /\
     zlen (h ++ d) = zlen pre + b2z (is_bnd p) + b2z w + 1 + fix_size f).
  { intros pre tk w P TK JC FA O Y FF.
    assert (WW : w = (match e_ofs e with USE16 => IS_OPER_32 e w | _ => negb (IS_OPER_32 e w) end)).
    { unfold IS_OPER_32. destruct (e_ofs e), w; reflexivity. }
    assert (LK : d = le_bytes (if IS_OPER_32 e w then 6 else 4) (wrap 32 (i32 (o_value o))) /\
                 h = pre ++ (if is_bnd p then [0xF2] else []) ++ (if w then [0x66] else []) ++ [if is_call tk then 0x9A else 0xEA]).
    { unfold codegen in G. rewrite Y, FA, TK, P, O, D in G.
      destruct tk; try discriminate JC; destruct (IS_OPER_32 e w) eqn:W32;
        cbn [far_rows find_row find accepts r_op r_cpu mkrow r_bnd r_b1] in G;
        (destruct (_ >? e_cpu e); [discriminate|]); destruct p; cbn [bindr] in G; try discriminate G;
        destruct (e_ofs e); try congruence; rewrite WW in G |- *; cbn [ofs_eqb negb andb] in G; try (destruct (e_cpu e <? P_386); [discriminate G|]); got G;
        unfold data_size; cbn [r_op mkrow is_call is_bnd app]; auto. }
    destruct LK as [DD HH]. split; [|split; [exact WW|split]].
    - rewrite DD, zlen_le, FF. destruct (IS_OPER_32 e w); reflexivity.
    - rewrite FF, DD, link_far; [|reflexivity|exact HS|rewrite FF in HT; destruct (IS_OPER_32 e w); exact HT]. rewrite HH, <- !app_assoc. reflexivity.
    - rewrite DD, HH, FF, !zlen_app, zlen_le. destruct (is_bnd p), w, (IS_OPER_32 e _); rewrite ?zlen_cons, ?zlen_nil; cbn; lia. }
  destruct SH as [NC FA P TK O Y FF | o' OO XC FA P TK O Y FF | c TC CC LJ FA P TK O Y FF | w JC FA P TK O Y FF | c w TC CC FA LJ P TK O YF].
  - exfalso. assert (f = FIX_RELOFF8) by congruence. subst f. discriminate.
  - exfalso. destruct FF as [FF|FF]; rewrite FF in KF; apply (f_equal (fun x => match x with Some y => rel_size y | None => None end)) in KF; rewrite RS in KF; [|discriminate].
    destruct (near_type e o'); discriminate.
  - exfalso. assert (f = FIX_RELOFF16) by congruence. subst f. discriminate.
  - assert (F2 : f = if IS_OPER_32 e w then FIX_PTR32 else FIX_PTR16) by congruence.
    destruct (GEN _ _ _ P TK JC FA O Y F2) as (ZD & WW & LK & ZL). split; [exact ZD|].
    rewrite LK, app_nil_l.
    assert (HT' : 0 <= T < 2 ^ (if IS_OPER_32 e w then 32 else 16)) by (rewrite F2 in HT; destruct (IS_OPER_32 e w); exact HT).
    pose proof (run_farptr (IS_OPER_32 e w) (is_bnd p) [] (e_ofs e) m cur false t T sel 2 M64 JC HS HT') as RF. cbv zeta in RF.
    rewrite <- WW in RF. rewrite RF. unfold far_means. f_equal.
    assert (NX : next = cur + zlen ((if is_bnd p then [242] else []) ++ (if w then [102] else []) ++ [if is_call t then 154 else 234] ++ le_bytes (if IS_OPER_32 e w then 4 else 2) T ++ le_bytes 2 sel)).
    { unfold next. rewrite ZL, F2. rewrite !zlen_app, !zlen_le, zlen_nil. destruct (is_bnd p), w, (IS_OPER_32 e _); rewrite ?zlen_cons; change (zlen (@nil Z)) with 0; cbn; lia. }
    destruct t; try discriminate JC; rewrite <- ?NX; reflexivity.
  - subst t. destruct (YF Q) as [Y FF]. assert (F2 : f = if IS_OPER_32 e w then FIX_PTR32 else FIX_PTR16) by congruence.
    specialize (NB eq_refl).
    destruct (GEN _ _ _ P TK eq_refl FA O Y F2) as (ZD & WW & LK & ZL). split; [exact ZD|].
    assert (NBB : is_bnd p = false) by (destruct p; (reflexivity || congruence)). rewrite NBB in *. cbn [app b2z is_call] in LK, ZL.
    assert (HT' : 0 <= T < 2 ^ (if IS_OPER_32 e w then 32 else 16)) by (rewrite F2 in HT; destruct (IS_OPER_32 e w); exact HT).
    rewrite LK.
    set (code := (if w then [102] else []) ++ 234 :: le_bytes (if IS_OPER_32 e w then 4 else 2) T ++ le_bytes 2 sel) in *.
    destruct (lxor70 (cc_code c) (cc_range c)) as [LX70 LX]. rewrite LX70.
    set (sk := if w then _ else _) in *.
    rewrite run_cons, dec_jcc8 by exact LX.
    assert (ZC : zlen code = sk).
    { unfold code, sk. rewrite zlen_app, zlen_cons, zlen_app, !zlen_le. unfold IS_OPER_32. destruct w, (e_ofs e); cbn; try congruence; reflexivity. }
    assert (SKR : swrap 8 sk = sk).
    { unfold sk. destruct w, (ofs_eqb (e_ofs e) USE16); reflexivity. }
    assert (R8 : rel8 (IJcc (Z.lxor (cc_code c) 1)) (opsize (e_ofs e) false) (sk :: code) = Some (IJcc (Z.lxor (cc_code c) 1) sk (bits (e_ofs e)), code)).
    { unfold rel8, field. replace (length (sk :: code) <? 1)%nat with false by reflexivity. cbn [firstn skipn].
      change (8 * Z.of_nat 1) with 8. replace (le_val [sk]) with sk by (unfold le_val; lia). rewrite SKR. destruct (e_ofs e); (reflexivity || congruence). }
    rewrite R8. cbv beta iota zeta. rewrite cc_not, cc_ok by apply cc_range. unfold far_means. rewrite !zlen_cons.
    assert (NX : next = cur + 2 + zlen code).
    { unfold next. rewrite ZL, ZC, F2, !zlen_cons, zlen_nil. unfold sk, IS_OPER_32. destruct w, (e_ofs e); cbn; try congruence; lia. }
    destruct (cond c m); cbn [negb].
    + pose proof (run_farptr (IS_OPER_32 e w) false [] (e_ofs e) m (cur + (1 + (1 + zlen code) - zlen code)) false JMP T sel 1 M64 eq_refl HS HT') as RF. cbv zeta in RF.
      rewrite <- WW in RF. cbn [app is_call] in RF. fold code in RF. rewrite RF. reflexivity.
    + f_equal. f_equal. f_equal. f_equal. rewrite NX, ZC. lia.
Qed.


Lemma ext_accepts e cur t o s a :
  target_state cur o s = Ok (SYM_EXTERNAL, a) -> min_cpu t <= e_cpu e ->
  match ext_form e t o s with
  | Some f => exists h d, branch e NoPrefix cur t o s = Ok (h, d, Some f)
  | None => branch e NoPrefix cur t o s = Err
  end.
Proof.
  intros TS CP.
  assert (C3 : P_386 <= e_cpu e) by (destruct t; cbn [min_cpu] in CP; unfold P_386, P_64 in *; lia).
  unfold branch, process_branch. rewrite TS. cbn [bindr andb].
  unfold fixup_part, ext_form. cbn [start_ci c_tok c_mt]. fold (mt0 o).
  replace (is_call t && mt_eqb (mt0 o) MT_EMPTY && mt_eqb (s_mt s) MT_FAR && s_hasseg s && (s_inseg s || s_group s)) with (pushx t o s)
    by (unfold pushx, pushes; reflexivity).
  assert (PX : pushx t o s = true -> t = CALL /\ mt0 o = MT_EMPTY).
  { unfold pushx, pushes. destruct t; try discriminate. destruct (mt0 o); try discriminate. auto. }
  assert (C1 : P_386 >? e_cpu e = false) by lia. assert (C2 : P_86 >? e_cpu e = false) by (unfold P_86, P_386 in *; lia).
  assert (C4 : e_cpu e <? P_386 = false) by lia. assert (C5 : e_cpu e >=? P_386 = true) by lia.
  assert (C6 : t = JRCXZ -> P_64 >? e_cpu e = false) by (intros ->; cbn [min_cpu] in CP; lia).
  unfold codegen, near_type, far_ptr, far_opsiz, IS_OPER_32, OPSIZE, start_ci, mt0 in *. rewrite C5.
  clear TS CP C3.
  destruct (pushx t o s) eqn:Q.
  - destruct (PX eq_refl) as [-> M]. clear PX. rewrite M.
    destruct (o_short o) eqn:SH, (o_explicit o), (o_ofs o) as [[]|], (e_ofs e) eqn:EO; try reflexivity;
      cbn; rewrite ?C1, ?C2, ?C4; cbn; rewrite ?C1, ?C2, ?C4; try (do 2 eexists; reflexivity).
  - clear PX. destruct t; destruct (o_short o) eqn:SH; destruct (o_explicit o) eqn:EX; destruct (o_mt o) eqn:MT; cbn; try reflexivity; cbn; try reflexivity;
      destruct (o_ofs o) as [[]|]; destruct (e_ofs e) eqn:EO; cbn; rewrite ?C1, ?C2, ?C4, ?(C6 eq_refl); cbn; rewrite ?andb_false_r; cbn;
      rewrite ?C1, ?C2, ?C4; try reflexivity; try (do 2 eexists; reflexivity);
      try (destruct (s_ofs s); cbn; rewrite ?C1, ?C2, ?C4; cbn; rewrite ?C4, ?andb_false_r; cbn; try (do 2 eexists; reflexivity);
           destruct (e_ljmp e); cbn; rewrite ?C1, ?C2, ?C4; cbn; rewrite ?C4; cbn; try reflexivity; try (do 2 eexists; reflexivity));
      try (destruct (e_ljmp e); cbn; rewrite ?C1, ?C2, ?C4; cbn; rewrite ?C4; cbn; try reflexivity; try (do 2 eexists; reflexivity)).
Qed.

Lemma linkable_state cur o s : linkable o s = true -> exists a, target_state cur o s = Ok (SYM_EXTERNAL, a).
Proof.
  unfold linkable, elsewhere, target_state. destruct (s_state s), (s_weak s), (s_hasseg s), (s_inseg s), (s_flat s), (s_group s), (mt_eqb (o_mt o) MT_NEAR);
    try discriminate; intros _; eexists; reflexivity.
Qed.
