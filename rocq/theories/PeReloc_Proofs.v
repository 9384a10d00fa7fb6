(** The base relocations, read by the loader, are the addresses of the fixups. *)
From Coq Require Import ZArith List Bool Lia.
From Verif Require Import Base Pe_Model Pe_Spec.
Import ListNotations.
Open Scope Z_scope.

Local Arguments Z.pow : simpl never.
Local Arguments Z.div : simpl never.
Local Arguments Z.modulo : simpl never.
Local Arguments le_bytes : simpl never.

Lemma le2 : forall v, 0 <= v < 65536 -> le_bytes 2 v = [v mod 256; v / 256].
Proof.
  intros v V. unfold le_bytes. f_equal. f_equal.
  rewrite Z.mod_small; [reflexivity|]. split; [apply Z.div_pos; lia|]. apply Z.div_lt_upper_bound; lia.
Qed.

Lemma words_rel : forall rel, Forall (fun v => 0 <= v < 65536) rel -> words (flat_map (le_bytes 2) rel) = rel.
Proof.
  induction rel as [|v r IH]; intro F; [reflexivity|]. inversion F as [|? ? V G]; subst.
  cbn [flat_map]. rewrite (le2 v V). cbn [app words]. rewrite (IH G). f_equal.
  pose proof (Z.div_mod v 256 ltac:(lia)). lia.
Qed.

Lemma rel_len : forall rel, zlen (flat_map (le_bytes 2) rel) = 2 * zlen rel.
Proof.
  induction rel as [|v r IH]; [reflexivity|]. cbn [flat_map]. rewrite zlen_app, zlen_cons, IH.
  unfold zlen at 1. rewrite le_bytes_length. lia.
Qed.

(** A finished block. *)
Record blk := { k_va : Z; k_rel : list Z }.
Definition size_of (b : blk) : Z := 8 + 2 * zlen (k_rel b).
Definition bytes_of (b : blk) : list Z := block (k_va b) (size_of b) (k_rel b).
Definition good (b : blk) : Prop :=
  0 <= k_va b < 2 ^ 32 /\ size_of b < 2 ^ 32 /\ Forall (fun v => 0 <= v < 65536) (k_rel b).
Definition even_blk (b : blk) : Prop := size_of b mod 4 = 0.

Lemma bytes_len : forall b, zlen (bytes_of b) = size_of b.
Proof.
  intro b. unfold bytes_of, block. rewrite !zlen_app, rel_len. unfold zlen at 1 2. rewrite !le_bytes_length.
  unfold size_of. lia.
Qed.

Lemma decode_block : forall b rest n, good b -> (even_blk b \/ rest = []) ->
  decode (S n) (bytes_of b ++ rest) =
  match decode n rest with Some r => Some (entries (k_va b) (k_rel b) ++ r) | None => None end.
Proof.
  intros b rest n (V & Z0 & F) A.
  assert (L4 : forall v t, firstn 4 (le_bytes 4 v ++ t) = le_bytes 4 v).
  { intros v t. replace 4%nat with (length (le_bytes 4 v)) at 1 by apply le_bytes_length. 
    rewrite firstn_app, Nat.sub_diag, firstn_O, app_nil_r. apply firstn_all2. reflexivity. }
  assert (S4 : forall v t, skipn 4 (le_bytes 4 v ++ t) = t).
  { intros v t. replace 4%nat with (length (le_bytes 4 v)) at 1 by apply le_bytes_length.
    rewrite skipn_app, Nat.sub_diag, skipn_O, skipn_all2 by lia. reflexivity. }
  assert (SZ : le_val (firstn 4 (skipn 4 (bytes_of b ++ rest))) = size_of b).
  { unfold bytes_of, block. rewrite <- !app_assoc. rewrite S4, L4. rewrite le_val_le_bytes.
    apply Z.mod_small. pose proof (zlen_nonneg (k_rel b)). unfold size_of in *. split; [lia|exact Z0]. }
  assert (VA : le_val (firstn 4 (bytes_of b ++ rest)) = k_va b).
  { unfold bytes_of, block. rewrite <- !app_assoc. rewrite L4, le_val_le_bytes. apply Z.mod_small. exact V. }
  assert (SP : Z.to_nat (size_of b) = length (bytes_of b)).
  { pose proof (bytes_len b) as B. unfold zlen in B. lia. }
  assert (NN : 0 <= zlen (k_rel b)) by apply zlen_nonneg.
  assert (EQ : decode (S n) (bytes_of b ++ rest) =
    (let size := le_val (firstn 4 (skipn 4 (bytes_of b ++ rest))) in
      if (8 <=? size) && (size <=? zlen (bytes_of b ++ rest)) && (size mod 2 =? 0)
         && ((size mod 4 =? 0) || (size =? zlen (bytes_of b ++ rest))) then
        match decode n (skipn (Z.to_nat size) (bytes_of b ++ rest)) with
        | Some r => Some (entries (le_val (firstn 4 (bytes_of b ++ rest))) (words (skipn 8 (firstn (Z.to_nat size) (bytes_of b ++ rest)))) ++ r)
        | None => None
        end
      else None)).
  { destruct (bytes_of b ++ rest) eqn:E; [|reflexivity]. exfalso.
    assert (length (bytes_of b) = O) by (apply (f_equal (@length Z)) in E; rewrite app_length in E; cbn in E; lia).
    unfold size_of in SP. lia. }
  rewrite EQ. clear EQ. rewrite SZ, VA. cbv zeta.
  rewrite zlen_app, bytes_len.
  assert (C1 : (8 <=? size_of b) = true) by (apply Z.leb_le; unfold size_of; lia).
  assert (C2 : (size_of b <=? size_of b + zlen rest) = true) by (apply Z.leb_le; pose proof (zlen_nonneg rest); lia).
  assert (C3 : (size_of b mod 2 =? 0) = true).
  { apply Z.eqb_eq. unfold size_of. replace (8 + 2 * zlen (k_rel b)) with ((4 + zlen (k_rel b)) * 2) by lia. apply Z.mod_mul. lia. }
  assert (C4 : ((size_of b mod 4 =? 0) || (size_of b =? size_of b + zlen rest)) = true).
  { apply orb_true_iff. destruct A as [A|A]; [left; apply Z.eqb_eq; exact A|right; rewrite A; apply Z.eqb_eq; unfold zlen; cbn; lia]. }
  rewrite C1, C2, C3, C4. cbn [andb].
  rewrite SP. rewrite skipn_app, Nat.sub_diag, skipn_all, skipn_O. cbn [app].
  rewrite firstn_app, Nat.sub_diag, firstn_all, firstn_O, app_nil_r.
  assert (W : words (skipn 8 (bytes_of b)) = k_rel b).
  { unfold bytes_of, block. rewrite app_assoc.
    replace 8%nat with (length (le_bytes 4 (k_va b) ++ le_bytes 4 (size_of b))) at 1 by (rewrite app_length, !le_bytes_length; reflexivity).
    rewrite skipn_app, Nat.sub_diag, skipn_all, skipn_O. cbn [app]. apply words_rel. exact F. }
  rewrite W. reflexivity.
Qed.

Definition all_bytes (l : list blk) : list Z := flat_map bytes_of l.
Definition all_entries (l : list blk) : list (Z * Z) := flat_map (fun b => entries (k_va b) (k_rel b)) l.

Lemma decode_blocks : forall l c n, Forall good l -> Forall even_blk l -> good c -> (length l < n)%nat ->
  decode n (all_bytes l ++ bytes_of c) = Some (all_entries l ++ entries (k_va c) (k_rel c)).
Proof.
  induction l as [|b l IH]; intros c n G E C N.
  - destruct n as [|n]; [cbn in N; lia|]. cbn [all_bytes flat_map app all_entries].
    rewrite <- (app_nil_r (bytes_of c)). rewrite (decode_block c [] n C (or_intror eq_refl)).
    destruct n; cbn [decode]; rewrite app_nil_r; reflexivity.
  - destruct n as [|n]; [cbn in N; lia|]. inversion G; inversion E; subst.
    unfold all_bytes, all_entries. cbn [flat_map]. rewrite <- !app_assoc.
    rewrite decode_block; [|assumption|left; assumption].
    fold (all_bytes l). rewrite IH; [|assumption..|cbn in N; lia]. reflexivity.
Qed.

(** ** The loop *)

Definition in_range (x : Z * Z * Z) : Prop :=
  let '(start, t, o) := x in 0 <= start /\ 0 <= o /\ start + o < 2 ^ 31.
Definition addr (x : Z * Z * Z) : list (Z * Z) :=
  let '(start, t, o) := x in match kind t with Some k => [(start + o, k)] | None => [] end.

Lemma page_eq : forall s o, 0 <= s -> 0 <= o -> s + o < 2 ^ 31 ->
  page s o = s + (o - o mod 4096) /\ 0 <= page s o < 2 ^ 31 /\ Z.land o 0xfff = o mod 4096 /\ 0 <= o mod 4096 < 4096.
Proof.
  intros s o S0 O0 B. change (2 ^ 31) with 2147483648 in *.
  assert (M : Z.land o 0xfff = o mod 4096) by (apply (Z.land_ones o 12); lia).
  assert (H : Z.land o 0xFFFFF000 = o - o mod 4096).
  { replace 0xFFFFF000 with (Z.shiftl (Z.ones 20) 12) by reflexivity.
    assert (E : Z.land o (Z.shiftl (Z.ones 20) 12) = Z.shiftl (Z.shiftr o 12) 12).
    { apply Z.bits_inj'. intros i I0. rewrite Z.land_spec, !Z.shiftl_spec by lia.
      destruct (Z_lt_ge_dec i 12) as [L|L]; [rewrite !(Z.testbit_neg_r _ (i - 12)) by lia; apply andb_false_r|].
      rewrite Z.shiftr_spec by lia. replace (i - 12 + 12) with i by lia.
      destruct (Z_lt_ge_dec i 32) as [L2|L2].
      - rewrite Z.ones_spec_low by lia. apply andb_true_r.
      - rewrite <- (Z.mod_small o (2 ^ 32)) by (change (2 ^ 32) with 4294967296; lia).
        rewrite Z.mod_pow2_bits_high by lia. reflexivity. }
    rewrite E, Z.shiftl_mul_pow2, Z.shiftr_div_pow2 by lia. change (2 ^ 12) with 4096.
    pose proof (Z.div_mod o 4096 ltac:(lia)). lia. }
  assert (R : 0 <= o mod 4096 < 4096) by (apply Z.mod_pos_bound; lia).
  assert (LE : o mod 4096 <= o) by (apply Z.mod_le; lia).
  assert (P : page s o = s + (o - o mod 4096)).
  { unfold page. rewrite H. apply wrap_small. change (2 ^ 32) with 4294967296. clear - S0 O0 B R LE. lia. }
  split; [exact P|]. rewrite P. clear - S0 O0 B R LE M. lia.
Qed.

Lemma entry_eq : forall o ft, 0 <= o < 4096 -> 0 <= ft < 16 -> Z.lor o (Z.shiftl ft 12) = o + ft * 4096.
Proof.
  intros o ft O0 F. rewrite Z.shiftl_mul_pow2 by lia. change (2 ^ 12) with 4096.
  rewrite <- Z.lxor_lor.
  - rewrite <- Z.add_nocarry_lxor; [reflexivity|].
    apply Z.bits_inj'. intros i I0. rewrite Z.land_spec, Z.bits_0.
    destruct (Z_lt_ge_dec i 12) as [L|L].
    + change 4096 with (2 ^ 12). rewrite Z.mul_pow2_bits_low by lia. apply andb_false_r.
    + rewrite <- (Z.mod_small o (2 ^ 12)) by exact O0. rewrite Z.mod_pow2_bits_high by lia. reflexivity.
  - apply Z.bits_inj'. intros i I0. rewrite Z.land_spec, Z.bits_0.
    destruct (Z_lt_ge_dec i 12) as [L|L].
    + change 4096 with (2 ^ 12). rewrite Z.mul_pow2_bits_low by lia. apply andb_false_r.
    + rewrite <- (Z.mod_small o (2 ^ 12)) by exact O0. rewrite Z.mod_pow2_bits_high by lia. reflexivity.
Qed.

(** The state of both loops: finished blocks, the block at baserel, counters. *)
Record inv (n : Z) (w : wst) (c1 c2 : Z) (ls : list blk) (c : blk) (es : list (Z * Z)) : Prop := {
  i_done : w_done w = all_bytes ls; i_va : w_va w = k_va c; i_size : w_size w = size_of c; i_rel : w_rel w = k_rel c;
  i_good : Forall good ls; i_even : Forall even_blk ls; i_cur : good c; i_low : k_va c < 2 ^ 31;
  i_ent : all_entries ls ++ entries (k_va c) (k_rel c) = es;
  i_c2 : c2 = zlen ls + 1; i_c1 : c1 + 4 * c2 = zlen (all_bytes ls) / 2 + size_of c / 2;
  i_par : Z.odd c1 = Z.odd (zlen (k_rel c));
  i_n : zlen (all_bytes ls) + size_of c <= 12 * n
}.

Lemma entries_app : forall va a b, entries va (a ++ b) = entries va a ++ entries va b.
Proof. intros. unfold entries. apply flat_map_app. Qed.

Lemma all_len : forall ls, zlen (all_bytes ls) = fold_right (fun b n => size_of b + n) 0 ls.
Proof.
  induction ls as [|b l IH]; [reflexivity|]. unfold all_bytes in *. cbn [flat_map fold_right].
  rewrite zlen_app, bytes_len, IH. reflexivity.
Qed.

Lemma all_snoc : forall ls b, all_bytes (ls ++ [b]) = all_bytes ls ++ bytes_of b.
Proof. intros. unfold all_bytes. rewrite flat_map_app. cbn [flat_map]. rewrite app_nil_r. reflexivity. Qed.
Lemma ent_snoc : forall ls b, all_entries (ls ++ [b]) = all_entries ls ++ entries (k_va b) (k_rel b).
Proof. intros. unfold all_entries. rewrite flat_map_app. cbn [flat_map]. rewrite app_nil_r. reflexivity. Qed.

Lemma kind_type : forall t, match kind t with
  | Some k => reloc_type t = k /\ 0 < k < 16 /\ ((t =? 5) || (t =? 6) || (t =? 7)) = true
  | None => reloc_type t = 0 /\ ((t =? 5) || (t =? 6) || (t =? 7)) = false end.
Proof.
  intro t. unfold kind, reloc_type. destruct (t =? 5), (t =? 6), (t =? 7); cbn; repeat split; lia.
Qed.

Lemma one_entry : forall va o k, 0 <= o < 4096 -> 0 < k < 16 -> entries va [o + k * 4096] = [(va + o, k)].
Proof.
  intros va o k O0 K. unfold entries. cbn [flat_map].
  assert (D : (o + k * 4096) / 4096 = k) by (rewrite Z.div_add, Z.div_small by lia; lia).
  assert (M : (o + k * 4096) mod 4096 = o) by (rewrite Z.mod_add, Z.mod_small by lia; lia).
  rewrite D, M. destruct (k =? 0) eqn:E; [apply Z.eqb_eq in E; lia|]. reflexivity.
Qed.

Lemma size_cases : forall c, (Z.land (size_of c) 2 =? 0) = negb (Z.odd (zlen (k_rel c))).
Proof.
  intro c. unfold size_of. set (n := zlen (k_rel c)).
  assert (B : Z.land (8 + 2 * n) 2 = 2 * (if Z.odd n then 1 else 0)).
  { replace (8 + 2 * n) with (Z.shiftl (n + 4) 1) by (rewrite Z.shiftl_mul_pow2 by lia; change (2 ^ 1) with 2; lia).
    change 2 with (Z.shiftl 1 1) at 1. rewrite <- Z.shiftl_land.
    change 1 with (Z.ones 1) at 1. rewrite Z.land_ones by lia. change (2 ^ 1) with 2. rewrite Zmod_odd, Z.odd_add. change (Z.odd 4) with false.
    rewrite xorb_false_r. destruct (Z.odd n); reflexivity. }
  rewrite B. destruct (Z.odd n); reflexivity.
Qed.

Lemma odd_mod : forall c, Z.odd (zlen (k_rel c)) = false -> even_blk c.
Proof.
  intros c H. unfold even_blk, size_of. assert (E : Z.even (zlen (k_rel c)) = true) by (rewrite <- Z.negb_odd, H; reflexivity).
  apply Z.even_spec in E. destruct E as [x X]. rewrite X. replace (8 + 2 * (2 * x)) with ((2 + x) * 4) by lia. apply Z.mod_mul. lia.
Qed.

Lemma loop : forall l n w c1 c2 ls c es, inv n w c1 c2 ls c es -> Forall in_range l -> 0 <= n -> 12 * (n + zlen l) < 2 ^ 31 ->
  exists w' c1' c2' ls' c' , write_relocs l w = w' /\ count_relocs l (w_va w) c1 c2 = (c1', c2') /\
    inv (n + zlen l) w' c1' c2' ls' c' (es ++ flat_map addr l).
Proof.
  induction l as [|[[s t] o] l IH]; intros n w c1 c2 ls c es I0 F N0 B.
  - exists w, c1, c2, ls, c. cbn [write_relocs count_relocs flat_map]. rewrite app_nil_r.
    split; [reflexivity|]. split; [reflexivity|]. change (zlen (@nil (Z * Z * Z))) with 0. rewrite Z.add_0_r. exact I0.
  - inversion F as [|? ? R F']; subst. destruct R as (S0 & O0 & SO).
    rewrite zlen_cons in *. pose proof (zlen_nonneg l) as LN.
    cbn [write_relocs count_relocs flat_map addr].
    pose proof (kind_type t) as K. destruct (kind t) as [k|].
    2:{ destruct K as [K1 K2]. rewrite K1, K2. cbn [app]. change (0 =? 0) with true. cbv iota.
        destruct (IH (n + 1) w c1 c2 ls c es) as (w' & c1' & c2' & ls' & c' & W & C & J); [|exact F'|lia|replace (n + 1 + zlen l) with (n + (1 + zlen l)) by lia; exact B|].
        { destruct I0; constructor; try assumption. lia. }
        exists w', c1', c2', ls', c'. split; [exact W|]. split; [exact C|]. replace (n + (1 + zlen l)) with (n + 1 + zlen l) by lia. exact J. }
    destruct K as (K1 & K2 & K3). rewrite K1, K3.
    destruct (k =? 0) eqn:K0; [apply Z.eqb_eq in K0; lia|]. clear K0.
    destruct (page_eq s o S0 O0 SO) as (PE & PR & PM & PB).
    rewrite PM, entry_eq by lia. cbv zeta.
    pose proof (one_entry (page s o) (o mod 4096) k PB K2) as OE.
    assert (AD : page s o + o mod 4096 = s + o) by lia.
    assert (V16 : 0 <= o mod 4096 + k * 4096 < 65536) by (clear - PB K2; lia).
    destruct I0 as [ID IV IS IR IG IE IC IL IX I2 I1 IP IN].
    assert (ZR : 0 <= zlen (k_rel c)) by apply zlen_nonneg.
    assert (ZA : 0 <= zlen (all_bytes ls)) by apply zlen_nonneg.
    rewrite IV. destruct (page s o =? k_va c) eqn:PG.
    + apply Z.eqb_eq in PG.
      set (c' := {| k_va := k_va c; k_rel := k_rel c ++ [o mod 4096 + k * 4096] |}).
      assert (SC : size_of c' = size_of c + 2).
      { unfold c', size_of. cbn [k_rel]. rewrite zlen_app, zlen_cons, zlen_nil. lia. }
      destruct (IH (n + 1) (put_reloc w (o mod 4096 + k * 4096)) (c1 + 1) c2 ls c' (es ++ [(s + o, k)])) as (w' & c1' & c2' & ls' & c'' & W & C & J).
      * unfold put_reloc. constructor; cbn [w_done w_va w_size w_rel]; try assumption.
        -- rewrite IS, SC. reflexivity.
        -- unfold c'. cbn [k_rel]. rewrite IR. reflexivity.
        -- destruct IC as (Q1 & Q2 & Q3). split; [exact Q1|]. split.
           ++ rewrite SC. clear - IN B N0 LN ZA. change (2 ^ 31) with 2147483648 in *. change (2 ^ 32) with 4294967296. lia.
           ++ unfold c'. cbn [k_rel]. apply Forall_app. split; [exact Q3|]. constructor; [exact V16|constructor].
        -- unfold c'. cbn [k_va k_rel]. rewrite entries_app, app_assoc, IX, <- PG, OE, AD. reflexivity.
        -- rewrite SC. replace (size_of c + 2) with (size_of c + 1 * 2) by lia. rewrite Z.div_add by lia. lia.
        -- unfold c'. cbn [k_rel]. rewrite zlen_app, zlen_cons, zlen_nil, !Z.odd_add, IP. reflexivity.
        -- rewrite SC. lia.
      * exact F'.
      * lia.
      * replace (n + 1 + zlen l) with (n + (1 + zlen l)) by lia; exact B.
      * exists w', c1', c2', ls', c''. split; [exact W|]. cbn [put_reloc w_va] in C. rewrite IV in C. split; [exact C|].
        replace (n + (1 + zlen l)) with (n + 1 + zlen l) by lia. rewrite <- app_assoc in J. exact J.
    + apply Z.eqb_neq in PG.
      set (d := {| k_va := k_va c; k_rel := k_rel c ++ (if Z.odd (zlen (k_rel c)) then [0] else []) |}).
      set (c' := {| k_va := page s o; k_rel := [o mod 4096 + k * 4096] |}).
      assert (OB : put_reloc (open_block w (page s o)) (o mod 4096 + k * 4096) =
        {| w_done := w_done w ++ bytes_of d; w_va := page s o; w_size := 10; w_rel := [o mod 4096 + k * 4096] |}).
      { unfold open_block. rewrite IV. destruct (k_va c =? 2 ^ 32 - 1) eqn:E.
        { apply Z.eqb_eq in E. exfalso. clear - E IL. change (2 ^ 31) with 2147483648 in *. change (2 ^ 32) with 4294967296 in *. lia. }
        rewrite IS, size_cases. unfold d, bytes_of, size_of. cbn [k_va k_rel].
        destruct (Z.odd (zlen (k_rel c))); cbn [negb put_reloc w_done w_va w_size w_rel app].
        - assert (ZL : zlen (k_rel c ++ [0]) = zlen (k_rel c) + 1) by (unfold zlen; rewrite app_length; cbn [length]; lia).
          rewrite IV, IR, IS, ZL. unfold size_of.
          replace (8 + 2 * (zlen (k_rel c) + 1)) with (8 + 2 * zlen (k_rel c) + 2) by lia. reflexivity.
        - rewrite app_nil_r, IV, IR, IS. reflexivity. }
      assert (SD : size_of d = size_of c + 2 * (if Z.odd (zlen (k_rel c)) then 1 else 0)).
      { unfold d, size_of. cbn [k_rel]. rewrite zlen_app. destruct (Z.odd (zlen (k_rel c))); rewrite ?zlen_cons, zlen_nil; lia. }
      assert (OD : Z.odd (zlen (k_rel d)) = false).
      { unfold d. cbn [k_rel]. rewrite zlen_app. destruct (Z.odd (zlen (k_rel c))) eqn:E; rewrite ?zlen_cons, zlen_nil, Z.odd_add, E; reflexivity. }
      assert (SC' : size_of c' = 10) by reflexivity.
      assert (GD : good d).
      { destruct IC as (Q1 & Q2 & Q3). split; [exact Q1|]. split.
        - rewrite SD. clear - IN B N0 LN ZA. change (2 ^ 31) with 2147483648 in *. change (2 ^ 32) with 4294967296.
          destruct (Z.odd (zlen (k_rel c))); lia.
        - unfold d. cbn [k_rel]. apply Forall_app. split; [exact Q3|]. destruct (Z.odd (zlen (k_rel c))); [constructor; [lia|constructor]|constructor]. }
      assert (ED : entries (k_va d) (k_rel d) = entries (k_va c) (k_rel c)).
      { unfold d. cbn [k_va k_rel]. rewrite entries_app. destruct (Z.odd (zlen (k_rel c))); apply app_nil_r. }
      rewrite OB.
      destruct (IH (n + 1) {| w_done := w_done w ++ bytes_of d; w_va := page s o; w_size := 10; w_rel := [o mod 4096 + k * 4096] |}
                  ((if Z.odd c1 then c1 + 1 else c1) + 1) (c2 + 1) (ls ++ [d]) c' (es ++ [(s + o, k)])) as (w' & c1' & c2' & ls' & c'' & W & C & J).
      * constructor; cbn [w_done w_va w_size w_rel]; try reflexivity.
        -- rewrite all_snoc, ID. reflexivity.
        -- apply Forall_app. split; [exact IG|]. constructor; [exact GD|constructor].
        -- apply Forall_app. split; [exact IE|]. constructor; [apply odd_mod; exact OD|constructor].
        -- split; [cbn [c' k_va]; clear - PR; change (2 ^ 31) with 2147483648 in *; change (2 ^ 32) with 4294967296; lia|]. split; [rewrite SC'; reflexivity|].
           constructor; [exact V16|constructor].
        -- cbn [c' k_va]. apply PR.
        -- rewrite ent_snoc, ED. unfold c'. cbn [k_va k_rel]. rewrite OE, AD, <- IX. reflexivity.
        -- rewrite zlen_app, zlen_cons, zlen_nil. lia.
        -- rewrite all_snoc, zlen_app, bytes_len, SC', IP, SD.
           assert (EV : exists x, zlen (all_bytes ls) = x * 2).
           { rewrite all_len. clear. induction ls as [|b r [x X]]; [exists 0; reflexivity|]. cbn [fold_right].
             exists (4 + zlen (k_rel b) + x). rewrite X. unfold size_of. lia. }
           destruct EV as [x X]. rewrite X in *.
           replace (x * 2 + (size_of c + 2 * (if Z.odd (zlen (k_rel c)) then 1 else 0))) with
             ((x + 4 + zlen (k_rel c) + (if Z.odd (zlen (k_rel c)) then 1 else 0)) * 2) by (unfold size_of; lia).
           rewrite Z.div_mul by lia. rewrite Z.div_mul in I1 by lia.
           assert (HS : size_of c / 2 = 4 + zlen (k_rel c)) by (unfold size_of; replace (8 + 2 * zlen (k_rel c)) with ((4 + zlen (k_rel c)) * 2) by lia; apply Z.div_mul; lia).
           rewrite HS in I1. change (10 / 2) with 5. destruct (Z.odd (zlen (k_rel c))); lia.
        -- cbn [c' k_rel]. rewrite zlen_cons, zlen_nil. rewrite Z.odd_add. destruct (Z.odd c1) eqn:E; [rewrite Z.odd_add, E|rewrite E]; reflexivity.
        -- rewrite all_snoc, zlen_app, bytes_len, SC', SD. destruct (Z.odd (zlen (k_rel c))); lia.
      * exact F'.
      * lia.
      * replace (n + 1 + zlen l) with (n + (1 + zlen l)) by lia; exact B.
      * exists w', c1', c2', ls', c''. split; [exact W|]. cbn [w_va] in C. split; [exact C|].
        replace (n + (1 + zlen l)) with (n + 1 + zlen l) by lia. rewrite <- app_assoc in J. exact J.
Qed.

(** Before the first relocation. *)
Definition w0 : wst := {| w_done := []; w_va := 2 ^ 32 - 1; w_size := 0; w_rel := [] |}.

Lemma start_loop : forall l n, Forall in_range l -> 0 <= n -> 12 * (n + zlen l) < 2 ^ 31 ->
  (flat_map addr l = [] /\ write_relocs l w0 = w0 /\ count_relocs l (2 ^ 32 - 1) 0 0 = (0, 0)) \/
  exists w' c1' c2' ls' c', write_relocs l w0 = w' /\ count_relocs l (2 ^ 32 - 1) 0 0 = (c1', c2') /\
    inv (n + zlen l) w' c1' c2' ls' c' (flat_map addr l).
Proof.
  induction l as [|[[s t] o] l IH]; intros n F N0 B; [left; repeat split|].
  inversion F as [|? ? R F']; subst. destruct R as (S0 & O0 & SO).
  rewrite zlen_cons in *. pose proof (zlen_nonneg l) as LN.
  cbn [write_relocs count_relocs flat_map addr].
  pose proof (kind_type t) as K. destruct (kind t) as [k|].
  2:{ destruct K as [K1 K2]. rewrite K1, K2. cbn [app]. change (0 =? 0) with true. cbv iota.
      destruct (IH (n + 1) F' ltac:(lia)) as [H|H]; [replace (n + 1 + zlen l) with (n + (1 + zlen l)) by lia; exact B|left; exact H|right].
      replace (n + (1 + zlen l)) with (n + 1 + zlen l) by lia. exact H. }
  right. destruct K as (K1 & K2 & K3). rewrite K1, K3.
  destruct (k =? 0) eqn:K0; [apply Z.eqb_eq in K0; lia|]. clear K0.
  destruct (page_eq s o S0 O0 SO) as (PE & PR & PM & PB).
  rewrite PM, entry_eq by lia. cbv zeta.
  pose proof (one_entry (page s o) (o mod 4096) k PB K2) as OE.
  assert (AD : page s o + o mod 4096 = s + o) by lia.
  assert (V16 : 0 <= o mod 4096 + k * 4096 < 65536) by (clear - PB K2; lia).
  cbn [w0 w_va].
  destruct (page s o =? 2 ^ 32 - 1) eqn:PG.
  { apply Z.eqb_eq in PG. exfalso. clear - PG PR. change (2 ^ 31) with 2147483648 in *. change (2 ^ 32) with 4294967296 in *. lia. }
  set (c' := {| k_va := page s o; k_rel := [o mod 4096 + k * 4096] |}).
  destruct (loop l (n + 1) {| w_done := []; w_va := page s o; w_size := 10; w_rel := [o mod 4096 + k * 4096] |} 1 1 [] c' [(s + o, k)])
    as (w' & c1' & c2' & ls' & c'' & W & C & J).
  - constructor; cbn [w_done w_va w_size w_rel]; try reflexivity; try constructor.
    + cbn [c' k_va]. clear - PR. change (2 ^ 31) with 2147483648 in *. change (2 ^ 32) with 4294967296. lia.
    + split; [reflexivity|]. constructor; [exact V16|constructor].
    + cbn [c' k_va]. apply PR.
    + unfold c'. cbn [k_va k_rel all_entries flat_map app]. rewrite OE, AD. reflexivity.
    + change (zlen (all_bytes [])) with 0. change (size_of c') with 10. lia.
  - exact F'.
  - lia.
  - replace (n + 1 + zlen l) with (n + (1 + zlen l)) by lia; exact B.
  - exists w', c1', c2', ls', c''. split; [exact W|]. split; [exact C|].
    replace (n + (1 + zlen l)) with (n + 1 + zlen l) by lia. exact J.
Qed.

Lemma addresses_eq : forall l, flat_map addr (fixups l) = addresses l.
Proof.
  induction l as [|q l IH]; [reflexivity|]. unfold fixups, addresses in *. cbn [flat_map].
  rewrite flat_map_app, IH. f_equal. destruct (p_type (q_s q) =? T_HDR); [reflexivity|].
  induction (p_fix (q_s q)) as [|[t o] f IH2]; [reflexivity|]. cbn [map flat_map addr fst snd]. rewrite <- IH2. reflexivity.
Qed.

(** The segments' fixups are inside the image. *)
Definition fix_in (q : placed) : Prop :=
  0 <= q_rva q /\ Forall (fun f => 0 <= snd f /\ q_rva q + snd f < 2 ^ 31) (p_fix (q_s q)).

Lemma relocs_ok : forall l, Forall fix_in l -> 12 * zlen (fixups l) < 2 ^ 31 ->
  let '(size, b) := base_relocs l in
  zlen b = size /\ size <= 12 * zlen (fixups l) /\ (addresses l <> [] -> 0 < size) /\
  exists n, decode n b = Some (addresses l).
Proof.
  intros l F B. unfold base_relocs.
  assert (R : Forall in_range (fixups l)).
  { apply Forall_forall. intros [[s t] o] X. unfold fixups in X. apply in_flat_map in X as (q & Q & X).
    destruct (p_type (q_s q) =? T_HDR); [destruct X|]. apply in_map_iff in X as ([t' o'] & E & X). inversion E; subst.
    rewrite Forall_forall in F. destruct (F q Q) as [F1 F2]. rewrite Forall_forall in F2. specialize (F2 _ X). cbn [snd] in F2.
    cbn [in_range snd]. lia. }
  rewrite <- addresses_eq.
  destruct (start_loop (fixups l) 0 R ltac:(lia)) as [(H1 & H2 & H3)|(w & c1 & c2 & ls & c & W & C & J)]; [rewrite Z.add_0_l; exact B| |].
  - fold w0. rewrite H1, H2, H3. cbn [w0 w_va w_done]. change (2 ^ 32 - 1 =? 2 ^ 32 - 1) with true. cbv iota.
    split; [reflexivity|]. split; [pose proof (zlen_nonneg (fixups l)); lia|]. split; [congruence|]. exists 1%nat. reflexivity.
  - fold w0. rewrite W, C. destruct J as [ID IV IS IR IG IE IC IL IX I2 I1 IP IN]. rewrite Z.add_0_l in IN.
    destruct (w_va w =? 2 ^ 32 - 1) eqn:E.
    { apply Z.eqb_eq in E. rewrite IV in E. exfalso. clear - E IL. change (2 ^ 31) with 2147483648 in *. change (2 ^ 32) with 4294967296 in *. lia. }
    rewrite ID, IV, IS, IR. fold (bytes_of c). rewrite zlen_app, bytes_len.
    assert (EV : exists x, zlen (all_bytes ls) = x * 2).
    { rewrite all_len. clear. induction ls as [|b r [x X]]; [exists 0; reflexivity|]. cbn [fold_right].
      exists (4 + zlen (k_rel b) + x). rewrite X. unfold size_of. lia. }
    destruct EV as [x X].
    assert (HS : size_of c / 2 = 4 + zlen (k_rel c)) by (unfold size_of; replace (8 + 2 * zlen (k_rel c)) with ((4 + zlen (k_rel c)) * 2) by lia; apply Z.div_mul; lia).
    rewrite X, Z.div_mul, HS in I1 by lia.
    assert (SZ : zlen (all_bytes ls) + size_of c = c2 * 8 + c1 * 2) by (rewrite X; unfold size_of; lia).
    split; [exact SZ|]. split; [lia|]. split; [pose proof (zlen_nonneg (all_bytes ls)); pose proof (zlen_nonneg (k_rel c)); unfold size_of in SZ; lia|].
    exists (S (length ls)). rewrite decode_blocks by (assumption || lia). f_equal. exact IX.
Qed.
