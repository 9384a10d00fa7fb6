(** Proofs about branches (see Branch_Props.v for the statements). *)
From Verif Require Import Base.
From Verif Require Import Mem_Model.
From Verif Require Import Branch_Model Branch_Spec.

Lemma field_exact n d : length d = n -> field n d = Some (swrap (8 * Z.of_nat n) (le_val d), []).
Proof.
  intros L. unfold field. rewrite L, Nat.ltb_irrefl. rewrite <- L at 2 3. rewrite firstn_all, skipn_all. reflexivity.
Qed.

Lemma swrap_cong n a b : 0 <= n -> a mod 2 ^ n = b mod 2 ^ n -> swrap n a = swrap n b.
Proof.
  intros N H. unfold swrap. rewrite (Z.add_mod a), (Z.add_mod b) by (apply Z.pow_nonzero; lia).
  rewrite H. reflexivity.
Qed.

Lemma mod_wrap32 n a : (1 <= n <= 4)%nat -> wrap 32 a mod 2 ^ (8 * Z.of_nat n) = a mod 2 ^ (8 * Z.of_nat n).
Proof.
  intros L. unfold wrap. assert (H : (n = 1 \/ n = 2 \/ n = 3 \/ n = 4)%nat) by lia.
  destruct H as [-> |[-> |[-> | ->]]].
  - change (2 ^ (8 * Z.of_nat 1)) with 256. change (2 ^ 32) with (256 * 16777216). rewrite Z.rem_mul_r by lia.
    rewrite Z.mul_comm, Z_mod_plus_full, Z.mod_mod by lia. reflexivity.
  - change (2 ^ (8 * Z.of_nat 2)) with 65536. change (2 ^ 32) with (65536 * 65536). rewrite Z.rem_mul_r by lia.
    rewrite Z.mul_comm, Z_mod_plus_full, Z.mod_mod by lia. reflexivity.
  - change (2 ^ (8 * Z.of_nat 3)) with 16777216. change (2 ^ 32) with (16777216 * 256). rewrite Z.rem_mul_r by lia.
    rewrite Z.mul_comm, Z_mod_plus_full, Z.mod_mod by lia. reflexivity.
  - change (2 ^ (8 * Z.of_nat 4)) with (2 ^ 32). rewrite Z.mod_mod by (cbn; lia). reflexivity.
Qed.

Lemma field_le n a : (1 <= n <= 4)%nat -> field n (le_bytes n (wrap 32 a)) = Some (swrap (8 * Z.of_nat n) a, []).
Proof.
  intros L. rewrite field_exact by apply le_bytes_length. f_equal. f_equal. apply swrap_cong; [lia|].
  rewrite le_val_le_bytes, Z.mod_mod by (apply Z.pow_nonzero; lia). apply mod_wrap32. exact L.
Qed.

Lemma i32_mod v : (i32 v) mod 2 ^ 32 = v mod 2 ^ 32.
Proof. apply swrap_mod. lia. Qed.
Lemma i32_cong a b : a mod 2 ^ 32 = b mod 2 ^ 32 -> i32 a = i32 b.
Proof. apply swrap_cong. lia. Qed.
Lemma i32_add x y : i32 (i32 x + y) = i32 (x + y).
Proof. apply i32_cong. rewrite Z.add_mod, i32_mod, <- Z.add_mod by (cbn; lia). reflexivity. Qed.
Lemma i32_add2 x y : i32 (x + i32 y) = i32 (x + y).
Proof. rewrite Z.add_comm, i32_add. f_equal. lia. Qed.
Lemma i32_sub x y : i32 (i32 x - y) = i32 (x - y).
Proof. rewrite <- !Z.add_opp_r. apply i32_add. Qed.
Lemma i32_sub2 x y z : i32 (i32 x - y - z) = i32 (x - y - z).
Proof. replace (i32 x - y - z) with (i32 x - (y + z)) by lia. rewrite i32_sub. f_equal. lia. Qed.
Lemma i32_range v : - 2 ^ 31 <= i32 v < 2 ^ 31.
Proof. apply (swrap_range 32). lia. Qed.
Lemma i32_small v : - 2 ^ 31 <= v < 2 ^ 31 -> i32 v = v.
Proof. intros H. apply swrap_small; [lia|exact H]. Qed.

Lemma mod_down n m a b : 0 <= n <= m -> a mod 2 ^ m = b mod 2 ^ m -> a mod 2 ^ n = b mod 2 ^ n.
Proof.
  intros L H. assert (P : 2 ^ m = 2 ^ n * 2 ^ (m - n)) by (rewrite <- Z.pow_add_r by lia; f_equal; lia).
  assert (0 < 2 ^ n) by (apply Z.pow_pos_nonneg; lia). assert (0 < 2 ^ (m - n)) by (apply Z.pow_pos_nonneg; lia).
  assert (F : forall x, (x mod 2 ^ m) mod 2 ^ n = x mod 2 ^ n).
  { intros x. rewrite P, Z.rem_mul_r by lia. rewrite Z.mul_comm, Z_mod_plus_full, Z.mod_mod by lia. reflexivity. }
  rewrite <- (F a), <- (F b), H. reflexivity.
Qed.

(** what the displacement must satisfy: [x] is computed modulo 2^32 as target - next *)
Lemma reach8 next x target o : x = target - next -> -128 <= i32 x <= 127 ->
  (o = 16 \/ o = 32 \/ (o = 64 /\ - 2 ^ 31 <= target - next < 2 ^ 31)) ->
  (next + swrap 8 (i32 x)) mod 2 ^ o = target mod 2 ^ o.
Proof.
  intros -> R O. rewrite (swrap_small 8) by (cbn; lia).
  assert (M : (next + i32 (target - next)) mod 2 ^ 32 = target mod 2 ^ 32).
  { rewrite Z.add_mod, i32_mod, <- Z.add_mod by (cbn; lia). f_equal. lia. }
  destruct O as [-> |[-> |[-> B]]].
  - apply (mod_down 16 32); [lia|exact M].
  - exact M.
  - rewrite i32_small by exact B. f_equal. lia.
Qed.
Lemma reach16 next x target : x = target - next -> (next + swrap 16 (i32 x)) mod 2 ^ 16 = target mod 2 ^ 16.
Proof.
  intros ->. rewrite Z.add_mod, swrap_mod by lia.
  rewrite (mod_down 16 32 (i32 (target - next)) (target - next)) by (lia || apply i32_mod).
  rewrite <- Z.add_mod by (cbn; lia). f_equal. lia.
Qed.
Lemma reach32 next x target o : x = target - next -> (o = 32 \/ (o = 64 /\ - 2 ^ 31 <= target - next < 2 ^ 31)) ->
  (next + swrap 32 (i32 x)) mod 2 ^ o = target mod 2 ^ o.
Proof.
  intros -> O. assert (W : swrap 32 (i32 (target - next)) = i32 (target - next)).
  { apply (swrap_small 32); [lia|]. apply i32_range. }
  rewrite W. destruct O as [-> |[-> B]].
  - rewrite Z.add_mod, i32_mod, <- Z.add_mod by (cbn; lia). f_equal. lia.
  - rewrite i32_small by exact B. f_equal. lia.
Qed.

Lemma cc_range c : 0 <= cc_code c < 16.
Proof. destruct c; cbn; lia. Qed.

Lemma cc_ok c m : cc_holds (cc_code c) m = cond c m.
Proof. destruct m as [[] [] [] [] [] r]; destruct c; reflexivity. Qed.

Lemma cc_not n m : 0 <= n < 16 -> cc_holds (Z.lxor n 1) m = negb (cc_holds n m).
Proof.
  intros H. assert (K : In n [0;1;2;3;4;5;6;7;8;9;10;11;12;13;14;15]).
  { cbn. lia. }
  cbn in K. destruct m as [[] [] [] [] [] r]; repeat (destruct K as [<- |K]; [reflexivity|]); destruct K.
Qed.

Lemma fixup_some e st o s k k' : fixup_part e st o s k = Ok k' -> c_fix k' <> None.
Proof.
  unfold fixup_part. cbv zeta.
  set (k1 := if _ && _ then FarCallToNear k else k).
  set (k2 := if _ && _ then _ else k1).
  clearbody k2. clear k1 k.
  unfold far_ptr, set_fix, set_type.
  repeat match goal with
  | |- (if ?b then _ else _) = _ -> _ => destruct b
  | |- match ?b with _ => _ end = _ -> _ => destruct b
  | |- Err = _ -> _ => discriminate
  | |- Ok _ = Ok _ -> _ => let H := fresh in intros H; injection H as <-; cbn; try discriminate
  end; repeat match goal with |- context [if ?b then _ else _] => destruct b end; cbn; discriminate.
Qed.

#[local] Arguments i32 : simpl never.
#[local] Arguments wrap : simpl never.
#[local] Arguments swrap : simpl never.
#[local] Arguments le_bytes : simpl never.

Definition b2z (b : bool) : Z := if b then 1 else 0.
Definition nat_of (t : otype) : nat := match t with I8 => 1 | I16 => 2 | I32 => 4 | _ => 0 end.
Definition ops (e : env) (o : opnd) : bool := match o_ofs o with Some x => OPSIZE (e_ofs e) x | None => false end.
(** prefix 67 counted by process_branch *)
Definition adr (e : env) (t : token) : bool :=
  (negb (ofs_eqb (e_ofs e) USE16) && b1_eqb (first_b1 t) F_16A) || (negb (ofs_eqb (e_ofs e) USE32) && b1_eqb (first_b1 t) F_32A).

Inductive shape (e : env) (p : prefix) (cur : Z) (t : token) (o : opnd) (s : sym) (T : Z) (k : ci) : Prop :=
| sh_short : is_call t = false -> c_pre k = [] -> c_tok k = t -> c_opsiz k = false -> c_type k = Some I8 ->
    c_data k = i32 (T - (cur + 2 + b2z (adr e t) + b2z (is_bnd p))) -> -128 <= c_data k <= 127 -> shape e p cur t o s T k
| sh_near : IS_XCX_BRANCH t = false -> (IS_JCC t = true -> P_386 <= e_cpu e) ->
    c_pre k = (if pushes t o s then [0x0E] else []) -> c_tok k = t -> c_opsiz k = ops e o -> c_type k = Some (near_type e o) ->
    c_data k = i32 (T - (cur + b2z (pushes t o s) + 1 + Z.of_nat (nat_of (near_type e o)) + b2z (ops e o) + b2z (is_bnd p) + b2z (IS_JCC t))) ->
    shape e p cur t o s T k
| sh_ext c : t = JCC c -> e_cpu e < P_386 -> mt0 o = MT_EMPTY -> e_ljmp e = true ->
    c_pre k = [Z.lxor (0x70 + cc_code c) 1; if ofs_eqb (e_ofs e) USE16 then 3 else 5] -> c_tok k = JMP -> c_opsiz k = ops e o ->
    c_type k = Some (near_type e o) ->
    c_data k = i32 (T - (cur + 3 + Z.of_nat (nat_of (near_type e o)) + b2z (ops e o) + b2z (is_bnd p))) -> shape e p cur t o s T k.

Lemma near_shape e p cur t o s addr k : near_part e p cur t o s addr (start_ci t o) = Ok k ->
  c_isfar k = false /\ c_fix k = None /\ shape e p cur t o s (addr + o_value o) k.
Proof.
  unfold near_part. fold (adr e t). cbn [start_ci c_tok c_mt c_data]. fold (mt0 o).
  change (is_call t && mt_eqb (mt0 o) MT_EMPTY && mt_eqb (s_mt s) MT_FAR) with (pushes t o s).
  set (st := if pushes t o s then _ else _).
  assert (S1 : c_pre (fst st) = (if pushes t o s then [0x0E] else []) /\ c_tok (fst st) = t /\ c_isfar (fst st) = false /\
               c_opsiz (fst st) = false /\ c_data (fst st) = i32 (o_value o) /\ c_fix (fst st) = None /\ snd st = cur + b2z (pushes t o s) /\
               c_mt (fst st) = (if pushes t o s then MT_NEAR else mt0 o)).
  { unfold st. destruct (pushes t o s); cbn; rewrite ?Z.add_0_r; auto 10. }
  destruct st as [k0 cur0]. cbn [fst snd] in S1. destruct S1 as (P0 & T0 & F0 & O0 & D0 & X0 & -> & M0).
  rewrite T0, D0.
  set (A1 := if adr e t then _ else _).
  assert (E1 : A1 = i32 (addr + o_value o - (cur + b2z (pushes t o s) + 2 + b2z (adr e t)))).
  { unfold A1. rewrite i32_add, i32_add2. destruct (adr e t); cbn [b2z]; rewrite ?i32_sub; f_equal; lia. }
  clearbody A1. subst A1.
  set (A2 := if is_bnd p then _ else _).
  assert (E2 : A2 = i32 (addr + o_value o - (cur + b2z (pushes t o s) + 2 + b2z (adr e t) + b2z (is_bnd p)))).
  { unfold A2. destruct (is_bnd p); cbn [b2z]; rewrite ?i32_sub; f_equal; lia. }
  clearbody A2. subst A2.
  set (T := addr + o_value o).
  destruct (negb (mt_eqb (c_mt k0) MT_NEAR) && negb (is_call t) && _ && _) eqn:B.
  - apply andb_prop in B as [B B4]. apply andb_prop in B as [B B3]. apply andb_prop in B as [B1 B2].
    assert (NC : is_call t = false) by (destruct (is_call t); [discriminate|reflexivity]).
    assert (NP : pushes t o s = false) by (unfold pushes; rewrite NC; reflexivity).
    rewrite NP in *. cbn [b2z] in *. rewrite Z.add_0_r in *.
    cbn [bindr]. intros H.
    assert (K : k = set_data (set_type k0 I8) (i32 (T - (cur + 2 + b2z (adr e t) + b2z (is_bnd p))))).
    { replace (match c_type _ with Some I8 => true | _ => false end) with true in H by reflexivity.
      cbn [negb] in H. rewrite andb_false_r in H. congruence. }
    subst k. split; [exact F0|]. split; [exact X0|]. apply sh_short; cbn; auto; lia.
  - destruct (o_short o || IS_XCX_BRANCH t) eqn:SX; [discriminate|].
    apply orb_false_elim in SX as [SH XCX].
    assert (AD : adr e t = false) by (unfold adr; destruct t; try discriminate XCX; cbn; rewrite ?andb_false_r; reflexivity).
    rewrite AD in *. cbn [b2z] in *. rewrite ?Z.add_0_r in *.
    set (pr := match o_ofs o with Some x => _ | None => _ end).
    assert (PR : c_pre (fst pr) = c_pre k0 /\ c_tok (fst pr) = t /\ c_isfar (fst pr) = false /\ c_fix (fst pr) = None /\ c_mt (fst pr) = c_mt k0 /\
                 c_opsiz (fst pr) = ops e o /\ c_type (fst pr) = Some (near_type e o) /\
                 snd pr = i32 (T - (cur + b2z (pushes t o s) + 1 + Z.of_nat (nat_of (near_type e o)) + b2z (ops e o) + b2z (is_bnd p)))).
    { unfold pr, ops, near_type. destruct (o_ofs o) as [[]|]; cbn.
      1-3: destruct (OPSIZE (e_ofs e) _); cbn; repeat (split; [assumption || reflexivity|]); rewrite ?i32_sub, ?i32_sub2; f_equal; lia.
      destruct (e_ofs e); cbn; repeat (split; [assumption || reflexivity|]); rewrite ?i32_sub, ?i32_sub2; f_equal; lia. }
    destruct pr as [k1 a1]. cbn [fst snd] in PR. destruct PR as (P1 & T1 & F1 & X1 & M1 & O1 & Y1 & ->).
    cbn [bindr]. rewrite T1.
    set (A3 := if IS_JCC t then _ else _).
    assert (E3 : A3 = i32 (T - (cur + b2z (pushes t o s) + 1 + Z.of_nat (nat_of (near_type e o)) + b2z (ops e o) + b2z (is_bnd p) + b2z (IS_JCC t)))).
    { unfold A3. destruct (IS_JCC t); cbn [b2z]; rewrite ?i32_sub; f_equal; lia. }
    clearbody A3. subst A3.
    cbn [set_data c_tok c_type c_mt]. rewrite T1, Y1.
    replace (match near_type e o with I8 => true | _ => false end) with false by (unfold near_type; destruct (o_ofs o) as [[]|], (e_ofs e); reflexivity).
    cbn [negb]. rewrite andb_true_r.
    destruct ((e_cpu e <? P_386) && IS_JCC t) eqn:CJ.
    + apply andb_prop in CJ as [CP J]. assert (TC : exists c, t = JCC c) by (destruct t; try discriminate J; eauto). destruct TC as [c ->].
      assert (NP : pushes (JCC c) o s = false) by reflexivity. rewrite NP in *. cbn [b2z] in *.
      destruct (mt_eqb (c_mt k1) MT_EMPTY && e_ljmp e) eqn:ML; [|discriminate].
      apply andb_prop in ML as [ME LJ]. intros H. assert (K := f_equal (fun r => match r with Ok x => x | _ => k end) H). cbn beta iota in K. subst k. clear H.
      cbn. split; [exact F1|]. split; [exact X1|]. apply (sh_ext _ _ _ _ _ _ _ _ c); cbn; auto.
      * lia.
      * rewrite M1, M0 in ME. destruct (mt0 o); (reflexivity || discriminate).
      * rewrite P1, P0, T1. cbn. destruct (e_ofs e); reflexivity.
      * rewrite i32_sub. f_equal. lia.
    + intros H. assert (K := f_equal (fun r => match r with Ok x => x | _ => k end) H). cbn beta iota in K. subst k. clear H.
      cbn. split; [exact F1|]. split; [exact X1|]. apply sh_near; cbn; auto.
      * intros J. rewrite J, andb_true_r in CJ. lia.
      * rewrite P1, P0. reflexivity.
Qed.

#[local] Arguments swrap : simpl never.
#[local] Arguments decrement : simpl never.
#[local] Arguments counter : simpl never.
#[local] Arguments cc_holds : simpl never.
#[local] Arguments cond : simpl never.
#[local] Arguments Z.modulo : simpl never.
#[local] Arguments Z.pow : simpl never.
#[local] Arguments zlen : simpl never.

Lemma in16 n : 0 <= n < 16 -> In n [0;1;2;3;4;5;6;7;8;9;10;11;12;13;14;15].
Proof. intros H. cbn. lia. Qed.
Lemma dec_jcc8 mode a b n r : 0 <= n < 16 -> decode mode a b (0x70 + n :: r) = rel8 (IJcc n) (opsize mode a) r.
Proof.
  intros H. apply in16 in H. cbn in H. repeat (destruct H as [<- |H]; [reflexivity|]). destruct H.
Qed.
Lemma dec_jcc mode a b n r : 0 <= n < 16 -> decode mode a b (0x0F :: 0x80 + n :: r) = rel (IJcc n) (opsize mode a) r.
Proof.
  intros H. apply in16 in H. cbn in H. repeat (destruct H as [<- |H]; [reflexivity|]). destruct H.
Qed.
Lemma lxor70 n : 0 <= n < 16 -> Z.lxor (0x70 + n) 1 = 0x70 + Z.lxor n 1 /\ 0 <= Z.lxor n 1 < 16.
Proof.
  intros H. apply in16 in H. cbn in H. repeat (destruct H as [<- |H]; [cbn; lia|]). destruct H.
Qed.

Lemma rel8_le f o a : rel8 f (Some o) (le_bytes 1 (wrap 32 a)) = Some (f (swrap 8 a) o, []).
Proof. unfold rel8. rewrite field_le by lia. reflexivity. Qed.
Lemma rel16_le f a : rel f (Some 16) (le_bytes 2 (wrap 32 a)) = Some (f (swrap 16 a) 16, []).
Proof. unfold rel. cbn [Z.eqb Pos.eqb]. rewrite field_le by lia. reflexivity. Qed.
Lemma rel32_le f o a : o = 32 \/ o = 64 -> rel f (Some o) (le_bytes 4 (wrap 32 a)) = Some (f (swrap 32 a) o, []).
Proof. intros [-> | ->]; unfold rel; cbn [Z.eqb Pos.eqb]; rewrite field_le by lia; reflexivity. Qed.

Lemma zlen_le n v : zlen (le_bytes n v) = Z.of_nat n.
Proof. unfold zlen. rewrite le_bytes_length. reflexivity. Qed.

Lemma run_cons f mode m ip b r cs :
  run (S f) mode m ip (b :: r) cs =
      match decode mode false false (b :: r) with
      | None => None
      | Some (i, rest) =>
        let next := ip + (zlen (b :: r) - zlen rest) in
        let leave d := Some ({| dest := d; ret := None; pushed_cs := cs; count := rcx m |}, @None Z) in
        let m' a := {| CF := CF m; ZF := ZF m; SF := SF m; OF := OF m; PF := PF m; rcx := decrement a (rcx m) |} in
        match i with
        | IPushCS => run f mode m next rest true
        | IJmp d o => leave ((next + d) mod 2 ^ o)
        | ICall d o => Some ({| dest := (next + d) mod 2 ^ o; ret := Some (next mod 2 ^ o); pushed_cs := cs; count := rcx m |}, None)
        | IJcc n d o => if cc_holds n m then leave ((next + d) mod 2 ^ o) else run f mode m next rest cs
        | ILoop n a d o =>
            if negb (counter a (decrement a (rcx m)) =? 0) && (if n =? 0 then negb (ZF m) else if n =? 1 then ZF m else true)
            then Some ({| dest := (next + d) mod 2 ^ o; ret := None; pushed_cs := cs; count := decrement a (rcx m) |}, None)
            else run f mode (m' a) next rest cs
        | IJcxz a d o => if counter a (rcx m) =? 0 then leave ((next + d) mod 2 ^ o) else run f mode m next rest cs
        | IFarJmp sel off => Some ({| dest := off; ret := None; pushed_cs := cs; count := rcx m |}, Some sel)
        | IFarCall sel off => Some ({| dest := off; ret := Some next; pushed_cs := true; count := rcx m |}, Some sel)
        end
      end.
Proof. reflexivity. Qed.
Lemma run_nil f mode m ip cs :
  run (S f) mode m ip [] cs = Some ({| dest := ip mod 2 ^ bits mode; ret := None; pushed_cs := cs; count := rcx m |}, None).
Proof. reflexivity. Qed.

Lemma dec_F2 mode a b r : decode mode a b (0xF2 :: r) = decode mode a b r. Proof. reflexivity. Qed.
Lemma dec_66 mode a b r : decode mode a b (0x66 :: r) = decode mode true b r. Proof. reflexivity. Qed.
Lemma dec_67 mode a b r : decode mode a b (0x67 :: r) = decode mode a true r. Proof. reflexivity. Qed.
Lemma dec_0E mode a b r : mode <> USE64 -> decode mode a b (0x0E :: r) = Some (IPushCS, r). Proof. destruct mode; (reflexivity || congruence). Qed.
Lemma dec_E0 mode a b r : decode mode a b (0xE0 :: r) = rel8 (ILoop 0 (addrsize mode b)) (opsize mode a) r. Proof. reflexivity. Qed.
Lemma dec_E1 mode a b r : decode mode a b (0xE1 :: r) = rel8 (ILoop 1 (addrsize mode b)) (opsize mode a) r. Proof. reflexivity. Qed.
Lemma dec_E2 mode a b r : decode mode a b (0xE2 :: r) = rel8 (ILoop 2 (addrsize mode b)) (opsize mode a) r. Proof. reflexivity. Qed.
Lemma dec_E3 mode a b r : decode mode a b (0xE3 :: r) = rel8 (IJcxz (addrsize mode b)) (opsize mode a) r. Proof. reflexivity. Qed.
Lemma dec_E8 mode a b r : decode mode a b (0xE8 :: r) = rel ICall (opsize mode a) r. Proof. reflexivity. Qed.
Lemma dec_E9 mode a b r : decode mode a b (0xE9 :: r) = rel IJmp (opsize mode a) r. Proof. reflexivity. Qed.
Lemma dec_EB mode a b r : decode mode a b (0xEB :: r) = rel8 IJmp (opsize mode a) r. Proof. reflexivity. Qed.
Lemma dec_EA mode a b r : decode mode a b (0xEA :: r) = far IFarJmp mode (opsize mode a) r. Proof. reflexivity. Qed.
Lemma dec_9A mode a b r : decode mode a b (0x9A :: r) = far IFarCall mode (opsize mode a) r. Proof. reflexivity. Qed.

Ltac dec := repeat first
  [ rewrite dec_F2 | rewrite dec_66 | rewrite dec_67 | rewrite dec_E0 | rewrite dec_E1 | rewrite dec_E2 | rewrite dec_E3
  | rewrite dec_E8 | rewrite dec_E9 | rewrite dec_EB | rewrite dec_jcc8 by apply cc_range | rewrite dec_jcc by apply cc_range ];
  cbn [opsize addrsize]; rewrite ?rel8_le, ?rel16_le, ?rel32_le by lia; cbv beta iota zeta.

Ltac lens := rewrite ?zlen_cons, ?zlen_nil, ?zlen_le, ?zlen_app in *; rewrite ?Z.add_0_r, ?Z.sub_0_r in *;
  change (Z.of_nat 1) with 1 in *; change (Z.of_nat 2) with 2 in *; change (Z.of_nat 4) with 4 in *.

(** the bytes of a short jump *)
Lemma run_short e p cur t o s T k h d m : available (e_ofs e) t = true -> c_isfar k = false ->
  is_call t = false -> c_pre k = [] -> c_tok k = t -> c_opsiz k = false -> c_type k = Some I8 ->
  c_data k = i32 (T - (cur + 2 + b2z (adr e t) + b2z (is_bnd p))) -> -128 <= c_data k <= 127 ->
  codegen e p k = Ok (h, d) ->
  (e_ofs e = USE64 -> - 2 ^ 31 <= T - (cur + zlen (h ++ d)) < 2 ^ 31) ->
  run 3 (e_ofs e) m cur (h ++ d) false =
    Some (means (e_ofs e) t (pushes t o s) m (T mod 2 ^ bits (e_ofs e)) ((cur + zlen (h ++ d)) mod 2 ^ bits (e_ofs e)), None).
Proof.
  intros AV F NC P T0 O Y D R G X.
  unfold codegen in G. rewrite Y, F, T0, P, O, D in G. rewrite D in R. clear Y F P O D.
  assert (K : exists a67 op, h = (if is_bnd p then [0xF2] else []) ++ a67 ++ [op] /\ zlen a67 = b2z (adr e t) /\
              d = le_bytes 1 (wrap 32 (i32 (T - (cur + 2 + b2z (adr e t) + b2z (is_bnd p))))) /\
              forall d, decode (e_ofs e) false false (h ++ d) =
                 rel8 (match t with
                       | JMP => IJmp
                       | JCC c => IJcc (cc_code c)
                       | JCXZ | JECXZ | JRCXZ => IJcxz (width (e_ofs e) t)
                       | LOOP | LOOPD | LOOPW => ILoop 2 (width (e_ofs e) t)
                       | LOOPE | LOOPZ | LOOPED | LOOPZD | LOOPEW | LOOPZW => ILoop 1 (width (e_ofs e) t)
                       | _ => ILoop 0 (width (e_ofs e) t) end) (Some (bits (e_ofs e))) d).
  { clear X R. unfold adr in *. destruct t; try discriminate NC; cbn in G, AV |- *;
    (destruct (_ >? _); [discriminate|]); destruct p; cbn in G; try discriminate G;
    destruct (e_ofs e); cbn in G, AV |- *; try discriminate AV;
    apply (f_equal (fun r => match r with Ok x => x | _ => (h, d) end)) in G; apply pair_equal_spec in G as [<- <-].
    all: first [ exists [], (0x70 + cc_code c); solve [split; [reflexivity|]; split; [reflexivity|]; split; [reflexivity|]; intros; cbn [app]; dec; reflexivity]
               | eexists [], _; split; [reflexivity|]; solve [split; [reflexivity|]; split; [reflexivity|]; intros; cbn [app]; dec; reflexivity]
               | eexists [0x67], _; split; [reflexivity|]; solve [split; [reflexivity|]; split; [reflexivity|]; intros; cbn [app]; dec; reflexivity] ]. }
  destruct K as (a67 & op & -> & L & -> & DEC). clear G.
  set (hh := (if is_bnd p then [0xF2] else []) ++ a67 ++ [op]) in *.
  assert (LH : zlen hh = 1 + b2z (adr e t) + b2z (is_bnd p)).
  { unfold hh. rewrite !zlen_app, L. destruct (is_bnd p); cbn [b2z]; rewrite ?zlen_cons, ?zlen_nil; lia. }
  assert (NE : exists b r, hh = b :: r).
  { unfold hh. destruct (is_bnd p); [cbn; eauto|]. destruct a67; cbn; eauto. }
  rewrite zlen_app, LH, zlen_le in *. change (Z.of_nat 1) with 1 in *.
  destruct NE as (b & r & NE).
  set (dd := le_bytes 1 _) in *.
  assert (CE : hh ++ dd = b :: (r ++ dd)) by (rewrite NE; reflexivity).
  assert (ZL : zlen (b :: r ++ dd) = 2 + b2z (adr e t) + b2z (is_bnd p)).
  { rewrite <- CE, zlen_app, LH. unfold dd. rewrite zlen_le. lia. }
  rewrite CE at 1. rewrite run_cons, ZL, <- CE, DEC. unfold dd. rewrite rel8_le. cbv beta iota zeta. rewrite ?zlen_nil, ?Z.sub_0_r.
  set (next := cur + (2 + b2z (adr e t) + b2z (is_bnd p))).
  assert (RE : (next + swrap 8 (i32 (T - (cur + 2 + b2z (adr e t) + b2z (is_bnd p))))) mod 2 ^ bits (e_ofs e) = T mod 2 ^ bits (e_ofs e)).
  { apply reach8; [unfold next; lia|exact R|]. destruct (e_ofs e); cbn [bits]; [lia|lia|]. right. right. split; [reflexivity|].
    specialize (X eq_refl). unfold next. lia. }
  replace (cur + (1 + b2z (adr e t) + b2z (is_bnd p) + 1)) with next by (unfold next; lia).
  clearbody next. clear dd CE ZL X R LH hh NE DEC L.
  destruct t; try discriminate NC; cbn [means]; unfold means; cbv zeta; rewrite ?run_nil, ?RE; cbn [rcx]; try reflexivity.
  - rewrite cc_ok. destruct (cond c m); reflexivity.
  - destruct (_ =? 0); reflexivity.
  - destruct (_ =? 0); reflexivity.
  - destruct (_ =? 0); reflexivity.
  - cbn. rewrite andb_true_r. destruct (negb _); reflexivity.
  - cbn. destruct (negb _), (ZF m); reflexivity.
  - cbn. destruct (negb _), (ZF m); reflexivity.
  - cbn. destruct (negb _), (ZF m); reflexivity.
  - cbn. destruct (negb _), (ZF m); reflexivity.
  - cbn. rewrite andb_true_r. destruct (negb _); reflexivity.
  - cbn. destruct (negb _), (ZF m); reflexivity.
  - cbn. destruct (negb _), (ZF m); reflexivity.
  - cbn. destruct (negb _), (ZF m); reflexivity.
  - cbn. destruct (negb _), (ZF m); reflexivity.
  - cbn. rewrite andb_true_r. destruct (negb _); reflexivity.
  - cbn. destruct (negb _), (ZF m); reflexivity.
  - cbn. destruct (negb _), (ZF m); reflexivity.
  - cbn. destruct (negb _), (ZF m); reflexivity.
  - cbn. destruct (negb _), (ZF m); reflexivity.
Qed.


Definition osz (e : env) (o : opnd) : Z :=
  match near_type e o with I16 => 16 | _ => match e_ofs e with USE64 => 64 | _ => 32 end end.

Lemma cast_opsize e o T next : cast_ok e o T next -> opsize (e_ofs e) (ops e o) = Some (osz e o).
Proof.
  unfold cast_ok, ops, osz, near_type. intros [-> |[-> |(A1 & A2 & _)]].
  - destruct (e_ofs e); reflexivity.
  - destruct (e_ofs e); reflexivity.
  - destruct (o_ofs o) as [[]|], (e_ofs e); cbn; congruence.
Qed.
Lemma cast_mod e o T next : cast_ok e o T next ->
  T mod 2 ^ osz e o = T mod 2 ^ bits (e_ofs e) /\ next mod 2 ^ osz e o = next mod 2 ^ bits (e_ofs e).
Proof.
  unfold cast_ok, osz, near_type. intros [-> |[-> |(A1 & A2 & A3 & A4)]].
  - destruct (e_ofs e); split; reflexivity.
  - destruct (e_ofs e); split; reflexivity.
  - assert (Q : forall w, w = 16 \/ w = 32 -> T mod 2 ^ w = T /\ next mod 2 ^ w = next).
    { change (2 ^ 16) with 65536 in *. intros w [-> | ->]; change (2 ^ 16) with 65536; change (2 ^ 32) with 4294967296; rewrite !Z.mod_small by lia; auto. }
    assert (Q16 := Q 16 (or_introl eq_refl)). assert (Q32 := Q 32 (or_intror eq_refl)). destruct Q16, Q32.
    destruct (o_ofs o) as [[]|], (e_ofs e); cbn [bits]; try congruence; split; congruence.
Qed.

Lemma rel_le e o f a : rel f (Some (osz e o)) (le_bytes (nat_of (near_type e o)) (wrap 32 a)) =
  Some (f (swrap (8 * Z.of_nat (nat_of (near_type e o))) a) (osz e o), []).
Proof.
  unfold osz, near_type. destruct (o_ofs o) as [[]|]; try apply rel16_le; destruct (e_ofs e); try apply rel16_le; apply rel32_le; auto.
Qed.
Lemma reach_near e o next x T : x = T - next -> (e_ofs e = USE64 -> - 2 ^ 31 <= T - next < 2 ^ 31) ->
  (next + swrap (8 * Z.of_nat (nat_of (near_type e o))) (i32 x)) mod 2 ^ osz e o = T mod 2 ^ osz e o.
Proof.
  intros H1 H2. unfold osz. destruct (near_type e o) eqn:N; try (exfalso; unfold near_type in N; destruct (o_ofs o) as [[]|], (e_ofs e); discriminate N).
  - apply reach16. exact H1.
  - apply reach32; [exact H1|]. destruct (e_ofs e); auto.
Qed.

Lemma run_near e p cur t o s T k h d m : c_isfar k = false ->
  IS_XCX_BRANCH t = false ->
  c_pre k = (if pushes t o s then [0x0E] else []) -> c_tok k = t -> c_opsiz k = ops e o -> c_type k = Some (near_type e o) ->
  c_data k = i32 (T - (cur + b2z (pushes t o s) + 1 + Z.of_nat (nat_of (near_type e o)) + b2z (ops e o) + b2z (is_bnd p) + b2z (IS_JCC t))) ->
  codegen e p k = Ok (h, d) ->
  (pushes t o s = true -> e_ofs e <> USE64) ->
  cast_ok e o T (cur + zlen (h ++ d)) ->
  (e_ofs e = USE64 -> - 2 ^ 31 <= T - (cur + zlen (h ++ d)) < 2 ^ 31) ->
  run 3 (e_ofs e) m cur (h ++ d) false =
    Some (means (e_ofs e) t (pushes t o s) m (T mod 2 ^ bits (e_ofs e)) ((cur + zlen (h ++ d)) mod 2 ^ bits (e_ofs e)), None).
Proof.
  intros F XC P T0 O Y D G PU CA X.
  unfold codegen in G. rewrite Y, F, T0, P, O, D in G. clear Y F P O D.
  set (ty := near_type e o) in *.
  assert (TY : ty = I16 \/ ty = I32) by (unfold ty, near_type; destruct (o_ofs o) as [[]|], (e_ofs e); auto).
  assert (K : exists h1, h = (if pushes t o s then [0x0E] else []) ++ h1 /\ zlen h1 = 1 + b2z (ops e o) + b2z (is_bnd p) + b2z (IS_JCC t) /\ h1 <> [] /\
              d = le_bytes (nat_of ty) (wrap 32 (i32 (T - (cur + b2z (pushes t o s) + 1 + Z.of_nat (nat_of ty) + b2z (ops e o) + b2z (is_bnd p) + b2z (IS_JCC t))))) /\
              forall d, decode (e_ofs e) false false (h1 ++ d) =
                 rel (match t with JMP => IJmp | JCC c => IJcc (cc_code c) | _ => ICall end) (opsize (e_ofs e) (ops e o)) d).
  { clear X CA PU. clearbody ty. set (px := if pushes t o s then [14] else []) in *. clearbody px.
    set (xx := i32 _) in *. clearbody xx.
    destruct t; try discriminate XC; destruct TY as [-> | ->]; cbn in G |- *; (destruct (_ >? _); [discriminate|]); destruct p; cbn in G; try discriminate G;
    destruct (ops e o); cbn in G |- *; try (destruct (_ <? _); [discriminate|]);
    apply (f_equal (fun r => match r with Ok x => x | _ => (h, d) end)) in G; apply pair_equal_spec in G as [<- <-];
    (eexists; split; [reflexivity|]; split; [reflexivity|]; split; [discriminate|]; split; [reflexivity|];
      intros; cbn [app]; dec; destruct (e_ofs e); reflexivity). }
  destruct K as (h1 & -> & L & NE & -> & DEC). clear G.
  rewrite (cast_opsize e o _ _ CA) in DEC.
  destruct (cast_mod e o _ _ CA) as [C1 C2]. clear CA.
  rewrite !zlen_app, L, zlen_le in *.
  set (q := pushes t o s) in *.
  assert (LQ : zlen (if q then [0x0E] else []) = b2z q) by (destruct q; reflexivity). rewrite LQ in *.
  set (a := i32 _).
  set (next := cur + _) in *.
  assert (RE : (next + swrap (8 * Z.of_nat (nat_of ty)) a) mod 2 ^ osz e o = T mod 2 ^ bits (e_ofs e)).
  { rewrite <- C1. apply reach_near; [unfold next; lia|]. intros U. specialize (X U). exact X. }
  clear X C1.
  assert (STEP : forall f ip cs, ip = cur + b2z q ->
    run (S (S f)) (e_ofs e) m ip (h1 ++ le_bytes (nat_of ty) (wrap 32 a)) cs =
    Some (match t with
          | JMP => {| dest := T mod 2 ^ bits (e_ofs e); ret := None; pushed_cs := cs; count := rcx m |}
          | JCC c => {| dest := if cond c m then T mod 2 ^ bits (e_ofs e) else next mod 2 ^ bits (e_ofs e); ret := None; pushed_cs := cs; count := rcx m |}
          | _ => {| dest := T mod 2 ^ bits (e_ofs e); ret := Some (next mod 2 ^ bits (e_ofs e)); pushed_cs := cs; count := rcx m |}
          end, None)).
  { intros f ip cs ->. set (dd := le_bytes _ _).
    assert (CE : exists b r, h1 ++ dd = b :: r) by (destruct h1 as [|b r]; [congruence|cbn; eauto]). destruct CE as (b & r & CE).
    assert (ZL : zlen (b :: r) = 1 + b2z (ops e o) + b2z (is_bnd p) + b2z (IS_JCC t) + Z.of_nat (nat_of ty)).
    { rewrite <- CE, zlen_app, L. unfold dd. rewrite zlen_le. lia. }
    rewrite CE, run_cons, ZL, <- CE, DEC. unfold dd. rewrite rel_le. fold ty.
    destruct t; try discriminate XC; cbv beta iota zeta; rewrite ?zlen_nil, ?Z.sub_0_r;
    replace (cur + b2z q + (1 + b2z (ops e o) + b2z (is_bnd p) + b2z (IS_JCC _) + Z.of_nat (nat_of ty))) with next by (unfold next; lia);
    rewrite ?RE, ?C2; try reflexivity.
    rewrite cc_ok. destruct (cond c m); [reflexivity|]. apply run_nil. }
  destruct q eqn:Q.
  - cbn [app]. change (run 3) with (run (S 2)). rewrite run_cons, dec_0E by (apply PU; reflexivity). cbv beta iota zeta.
    rewrite zlen_cons. rewrite STEP by (cbn [b2z]; lia).
    unfold q, pushes in Q. destruct t; try discriminate Q. reflexivity.
  - cbn [app]. rewrite STEP by (cbn [b2z]; lia). destruct t; try discriminate XC; try reflexivity.
Qed.

Lemma run_ext e p cur c o s T k h d m : c_isfar k = false -> p <> BND -> e_cpu e < P_386 ->
  c_pre k = [Z.lxor (0x70 + cc_code c) 1; if ofs_eqb (e_ofs e) USE16 then 3 else 5] -> c_tok k = JMP -> c_opsiz k = ops e o ->
  c_type k = Some (near_type e o) ->
  c_data k = i32 (T - (cur + 3 + Z.of_nat (nat_of (near_type e o)) + b2z (ops e o) + b2z (is_bnd p))) ->
  codegen e p k = Ok (h, d) ->
  run 3 (e_ofs e) m cur (h ++ d) false =
    Some (means (e_ofs e) (JCC c) (pushes (JCC c) o s) m (T mod 2 ^ bits (e_ofs e)) ((cur + zlen (h ++ d)) mod 2 ^ bits (e_ofs e)), None).
Proof.
  intros F NB CP P T0 O Y D G.
  unfold codegen in G. rewrite Y, F, T0, P, O, D in G. clear Y F P O D.
  assert (CP' : P_386 >? e_cpu e = true) by lia. assert (CP2 : e_cpu e <? P_386 = true) by lia.
  destruct (near_type e o) eqn:TY; try (exfalso; unfold near_type in TY; destruct (o_ofs o) as [[]|], (e_ofs e); discriminate TY);
    cbn in G; [|rewrite CP' in G; discriminate G].
  destruct (P_86 >? e_cpu e); [discriminate|]. rewrite CP2, andb_true_r in G.
  destruct p; try congruence; cbn in G; [|discriminate].
  destruct (ops e o) eqn:OP; [discriminate|]. cbn in G.
  assert (M : e_ofs e = USE16).
  { unfold ops, near_type in *. destruct (o_ofs o) as [[]|], (e_ofs e); cbn in *; congruence. }
  rewrite M in *. cbn [ofs_eqb] in G.
  apply (f_equal (fun r => match r with Ok x => x | _ => (h, d) end)) in G; apply pair_equal_spec in G as [<- <-].
  destruct (lxor70 (cc_code c) (cc_range c)) as [-> LX].
  cbn [app b2z is_bnd] in *. change (Z.of_nat (nat_of I16)) with 2. change (Z.of_nat 2) with 2. change (data_size I16 _) with 2%nat.
  rewrite run_cons, dec_jcc8 by exact LX.
  change (rel8 (IJcc (Z.lxor (cc_code c) 1)) (opsize USE16 false) (3 :: 233 :: le_bytes 2 (wrap 32 (i32 (T - (cur + 3 + 2 + 0 + 0))))))
    with (Some (IJcc (Z.lxor (cc_code c) 1) 3 16, 233 :: le_bytes 2 (wrap 32 (i32 (T - (cur + 3 + 2 + 0 + 0)))))).
  cbv beta iota zeta. rewrite cc_not by apply cc_range. rewrite cc_ok. lens. unfold means. cbv zeta. cbn [bits].
  destruct (cond c m); cbn [negb].
  - rewrite run_cons. dec. lens. rewrite reach16 with (target := T) by lia. reflexivity.
  - replace (cur + (1 + (1 + (1 + 2)) - (1 + 2)) + 3) with (cur + (1 + (1 + (1 + 2)))) by lia. reflexivity.
Qed.

(** all branches to a label of the segment *)
Theorem branch_reaches e p cur t o s h d m :
  s_state s = SYM_INTERNAL -> s_hasseg s = true -> s_inseg s = true -> (s_met s = true \/ cur <= s_offset s) ->
  available (e_ofs e) t = true ->
  (p = BND -> P_386 <= e_cpu e) ->
  (pushes t o s = true -> e_ofs e <> USE64) ->
  let T := s_offset s + o_value o in
  cast_ok e o T (cur + zlen (h ++ d)) ->
  (e_ofs e = USE64 -> - 2 ^ 31 <= T - (cur + zlen (h ++ d)) < 2 ^ 31) ->
  branch e p cur t o s = Ok (h, d, None) ->
  run 3 (e_ofs e) m cur (h ++ d) false =
    Some (means (e_ofs e) t (pushes t o s) m (T mod 2 ^ bits (e_ofs e)) ((cur + zlen (h ++ d)) mod 2 ^ bits (e_ofs e)), None).
Proof.
  intros ST HS IN MET AV BN PU T CA X H. unfold branch, process_branch, target_state in H.
  rewrite ST, HS, IN in H. cbn [andb bindr] in H.
  assert (AD : (if negb (s_met s) && (s_offset s <? cur) then cur else s_offset s) = s_offset s).
  { destruct MET as [-> |M]; [reflexivity|]. destruct (Z.ltb_spec (s_offset s) cur); [lia|]. rewrite andb_false_r. reflexivity. }
  rewrite AD in H. clear AD.
  destruct (match c_mt (start_ci t o) with MT_EMPTY | MT_NEAR => true | _ => false end).
  - destruct (near_part e p cur t o s (s_offset s) (start_ci t o)) as [k| |] eqn:N; try discriminate. cbn [bindr] in H.
    destruct (codegen e p k) as [[h' d']| |] eqn:G; try discriminate. cbn [bindr] in H.
    assert (h' = h /\ d' = d) as [-> ->] by (split; congruence). clear H.
    apply near_shape in N as (F & _ & SH). fold T in SH. destruct SH.
    + eapply run_short; eassumption.
    + eapply run_near; eassumption.
    + subst t. eapply run_ext; try eassumption. intros ->. specialize (BN eq_refl). lia.
  - exfalso. destruct (fixup_part _ _ _ _ _) as [k| |] eqn:FX; try discriminate. cbn [bindr] in H.
    apply fixup_some in FX. destruct (codegen e p k) as [[h' d']| |]; try discriminate. cbn [bindr] in H. congruence.
Qed.
