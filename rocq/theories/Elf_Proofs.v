(** ELF: reading records, strings, and the layout of the file. *)
From Verif Require Import Base Elf_Model Elf_Spec.
From Coq Require Import Lia Arith.

(** * slices, records *)
Lemma slice_app a b c i n : i = zlen a -> n = zlen b -> slice i n (a ++ b ++ c) = Some b.
Proof.
  intros -> ->. unfold slice. rewrite !zlen_app. pose proof (zlen_nonneg a). pose proof (zlen_nonneg b). pose proof (zlen_nonneg c).
  destruct (Z.leb_spec 0 (zlen a)); [|lia]. destruct (Z.leb_spec 0 (zlen b)); [|lia]. destruct (Z.leb_spec (zlen a + zlen b) (zlen a + (zlen b + zlen c))); [|lia].
  cbn [andb]. f_equal. unfold zlen. rewrite !Nat2Z.id, skipn_app, Nat.sub_diag, skipn_all. cbn [app skipn]. rewrite firstn_app, Nat.sub_diag, firstn_all. cbn [firstn]. apply app_nil_r.
Qed.
(** a slice of a prefix *)
Lemma slice_prefix i n a b r : slice i n (a ++ b) = Some r -> i + n <= zlen a -> slice i n a = Some r.
Proof.
  unfold slice. rewrite zlen_app. pose proof (zlen_nonneg b). destruct (Z.leb_spec 0 i); [|discriminate]. destruct (Z.leb_spec 0 n); [|discriminate]. cbn [andb].
  intros E L. destruct (Z.leb_spec (i + n) (zlen a)); [|lia]. destruct (Z.leb_spec (i + n) (zlen a + zlen b)); [|lia]. cbn [andb].
  rewrite <- E. f_equal. unfold zlen in *. rewrite skipn_app, firstn_app.
  replace (Z.to_nat n - length (skipn (Z.to_nat i) a))%nat with 0%nat by (rewrite skipn_length; lia). cbn [firstn]. now rewrite app_nil_r.
Qed.
Lemma records_map {A} (g : A -> list Z) size l : 0 <= size -> Forall (fun a => zlen (g a) = size) l -> records (length l) size (flat_map g l) = Some (map g l).
Proof.
  intros S0. induction 1 as [|a l H _ IH]; cbn [length records flat_map map]; [reflexivity|].
  rewrite <- (app_nil_l (g a ++ flat_map g l)), slice_app by (symmetry; [reflexivity|assumption] || auto). cbn [app].
  replace (Z.to_nat size) with (length (g a)) by (unfold zlen in H; lia). rewrite skipn_app, skipn_all, Nat.sub_diag. cbn [skipn app]. now rewrite IH.
Qed.
Lemma flat_map_zlen {A} (g : A -> list Z) size l : Forall (fun a => zlen (g a) = size) l -> zlen (flat_map g l) = zlen l * size.
Proof. induction 1 as [|a l H _ IH]; cbn [flat_map]; [reflexivity|]. rewrite zlen_app, zlen_cons, IH, H. lia. Qed.
Lemma table_map {A} (g : A -> list Z) size l : 0 < size -> Forall (fun a => zlen (g a) = size) l -> table size (flat_map g l) = Some (map g l).
Proof.
  intros S0 F. unfold table. rewrite (flat_map_zlen g size l F). rewrite Z_mod_mult, Z_div_mult by lia.
  destruct (Z.ltb_spec 0 size); [|lia]. cbn [andb Z.eqb]. unfold zlen. rewrite Nat2Z.id. apply records_map; [lia|assumption].
Qed.
Lemma all_map {A B C} (r : B -> option C) (g : A -> B) (h : A -> C) l : Forall (fun a => r (g a) = Some (h a)) l -> all r (map g l) = Some (map h l).
Proof. induction 1 as [|a l H _ IH]; cbn [all map]; [reflexivity|]. now rewrite H, IH. Qed.
Lemma all_Forall2 {A B} (r : A -> option B) l v : Forall2 (fun a b => r a = Some b) l v -> all r l = Some v.
Proof. induction 1 as [|a b l v H _ IH]; cbn [all]; [reflexivity|]. now rewrite H, IH. Qed.

(** * fields *)
Lemma f_le n v : le_val (le_bytes n v) = wrap (8 * Z.of_nat n) v. Proof. apply le_val_le_bytes. Qed.
Lemma f_4 v : 0 <= v < 2 ^ 32 -> le_val (le_bytes 4 v) = v. Proof. intros H. rewrite f_le. now apply wrap_small. Qed.
Lemma f_2 v : 0 <= v < 2 ^ 16 -> le_val (le_bytes 2 v) = v. Proof. intros H. rewrite f_le. now apply wrap_small. Qed.
Lemma f_1 v : 0 <= v < 2 ^ 8 -> le_val (le_bytes 1 v) = v. Proof. intros H. rewrite f_le. now apply wrap_small. Qed.
Lemma f_8 v : 0 <= v < 2 ^ 64 -> le_val (le_bytes 8 v) = v. Proof. intros H. rewrite f_le. now apply wrap_small. Qed.
Lemma le_zlen n v : zlen (le_bytes n v) = Z.of_nat n. Proof. unfold zlen. now rewrite le_bytes_length. Qed.

(** * strings *)
Lemma cstring_app s r : name_ok s -> cstring (s ++ 0 :: r) = Some s.
Proof. induction 1 as [|x s X _ IH]; cbn [cstring app]; [reflexivity|]. destruct (Z.eqb_spec x 0); [lia|]. now rewrite IH. Qed.
Lemma strlen_app s r : name_ok s -> strlen (s ++ 0 :: r) = zlen s.
Proof. induction 1 as [|x s X _ IH]; cbn [strlen app]; [reflexivity|]. destruct (Z.eqb_spec x 0); [lia|]. rewrite IH, zlen_cons. reflexivity. Qed.
Lemma skipn_zlen {A} (a b : list A) : skipn (Z.to_nat (zlen a)) (a ++ b) = b.
Proof. unfold zlen. rewrite Nat2Z.id, skipn_app, skipn_all, Nat.sub_diag. reflexivity. Qed.
Lemma string_at_app A s B o : name_ok s -> o = zlen A -> string_at (A ++ asciiz s ++ B) o = Some s.
Proof.
  intros H ->. unfold string_at. pose proof (zlen_nonneg A). destruct (Z.leb_spec 0 (zlen A)); [|lia].
  rewrite skipn_zlen. unfold asciiz. rewrite <- app_assoc. now apply cstring_app.
Qed.
Lemma next_name_app A s B p : name_ok s -> p = zlen A -> next_name (A ++ asciiz s ++ B) p = zlen (A ++ asciiz s).
Proof.
  intros H ->. unfold next_name. rewrite skipn_zlen. unfold asciiz. rewrite <- app_assoc. cbn [app]. rewrite strlen_app by assumption.
  rewrite !zlen_app. reflexivity.
Qed.
Lemma asciiz_zlen s : zlen (asciiz s) = zlen s + 1. Proof. unfold asciiz. now rewrite zlen_app. Qed.

(** * layout *)
Definition up (v : Z) : Z := (v + 15) / 16 * 16.
Lemma up_spec v : v <= up v < v + 16 /\ up v mod 16 = 0.
Proof.
  unfold up. split.
  - pose proof (Z.div_mod (v + 15) 16 ltac:(lia)). pose proof (Z.mod_pos_bound (v + 15) 16 ltac:(lia)). lia.
  - apply Z_mod_mult.
Qed.
Lemma up_id v : v mod 16 = 0 -> up v = v.
Proof.
  intros H. unfold up. pose proof (Z.div_mod v 16 ltac:(lia)). rewrite H in *.
  replace (v + 15) with (15 + v / 16 * 16) by lia. rewrite Z.div_add by lia. change (15 / 16) with 0. lia.
Qed.
Lemma align16_up v : 0 <= v -> v + 15 < 2 ^ 32 -> align16 v = up v.
Proof.
  intros H B. unfold align16, up. rewrite wrap_small by lia. change 0xFFFFFFF0 with (Z.shiftl (Z.ones 28) 4).
  apply Z.bits_inj'. intros n Hn. rewrite Z.land_spec. change 16 with (2 ^ 4). rewrite <- Z.shiftl_mul_pow2, <- Z.shiftr_div_pow2 by lia.
  destruct (Z.ltb_spec n 4).
  - rewrite !Z.shiftl_spec_low by lia. apply andb_false_r.
  - rewrite !Z.shiftl_spec by lia. rewrite Z.shiftr_spec by lia. replace (n - 4 + 4) with n by lia.
    destruct (Z.ltb_spec (n - 4) 28).
    + rewrite Z.ones_spec_low by lia. apply andb_true_r.
    + rewrite Z.ones_spec_high by lia. rewrite andb_false_r. symmetry. apply Z.testbit_false; [lia|].
      rewrite Z.div_small; [reflexivity|]. split; [lia|]. apply Z.lt_le_trans with (2 ^ 32); [lia|]. apply Z.pow_le_mono_r; lia.
Qed.
(** offsets of blocks of the sizes given *)
Fixpoint lay (fo : Z) (l : list Z) : list Z := match l with [] => [] | z :: l => fo :: lay (up (fo + z)) l end.
Fixpoint lay_end (fo : Z) (l : list Z) : Z := match l with [] => fo | z :: l => lay_end (up (fo + z)) l end.
Lemma lay_app fo a b : lay fo (a ++ b) = lay fo a ++ lay (lay_end fo a) b.
Proof. revert fo. induction a as [|z a IH]; intros fo; cbn [lay lay_end app]; [reflexivity|]. now rewrite IH. Qed.
Lemma lay_end_app fo a b : lay_end fo (a ++ b) = lay_end (lay_end fo a) b.
Proof. revert fo. induction a as [|z a IH]; intros fo; cbn [lay_end app]; [reflexivity|]. now rewrite IH. Qed.
Lemma lay_length fo l : length (lay fo l) = length l.
Proof. revert fo. induction l; intros fo; cbn [lay length]; auto. Qed.
Lemma lay_end_ge fo l : Forall (fun z => 0 <= z) l -> fo <= lay_end fo l.
Proof. intros H. revert fo. induction H as [|z l Hz _ IH]; intros fo; cbn [lay_end]; [lia|]. specialize (IH (up (fo + z))). pose proof (up_spec (fo + z)). lia. Qed.
Lemma lay_end_mod fo l : fo mod 16 = 0 -> lay_end fo l mod 16 = 0.
Proof. revert fo. induction l as [|z l IH]; intros fo H; cbn [lay_end]; [assumption|]. apply IH. apply up_spec. Qed.
Lemma lay_mod fo l : fo mod 16 = 0 -> Forall (fun o => o mod 16 = 0) (lay fo l).
Proof. revert fo. induction l as [|z l IH]; intros fo H; cbn [lay]; constructor; [assumption|]. apply IH. apply up_spec. Qed.
Lemma lay_end_le fo l : lay_end fo l <= fo + sum (fun z => z + 16) l.
Proof. revert fo. induction l as [|z l IH]; intros fo; cbn [lay_end sum fold_right]; [lia|]. fold (sum (fun z => z + 16) l). specialize (IH (up (fo + z))). pose proof (up_spec (fo + z)). lia. Qed.
(** the blocks with zeros between *)
Definition zeros (n : Z) : list Z := repeat 0 (Z.to_nat n).
Lemma zeros_zlen n : 0 <= n -> zlen (zeros n) = n. Proof. intros H. unfold zeros, zlen. rewrite repeat_length. lia. Qed.
Lemma zeros_app a b : 0 <= a -> 0 <= b -> zeros a ++ zeros b = zeros (a + b).
Proof. intros. unfold zeros. rewrite <- repeat_app. f_equal. lia. Qed.
Fixpoint pack (fo : Z) (l : list (list Z)) : list Z :=
  match l with [] => [] | d :: l => d ++ zeros (up (fo + zlen d) - (fo + zlen d)) ++ pack (up (fo + zlen d)) l end.
Lemma pack_app fo a b : pack fo (a ++ b) = pack fo a ++ pack (lay_end fo (map zlen a)) b.
Proof. revert fo. induction a as [|z a IH]; intros fo; cbn [pack map lay_end app]; [reflexivity|]. rewrite IH, <- !app_assoc. reflexivity. Qed.
Lemma pack_zlen fo l : zlen (pack fo l) = lay_end fo (map zlen l) - fo.
Proof.
  revert fo. induction l as [|d l IH]; intros fo; cbn [pack map lay_end]; [change (zlen (@nil Z)) with 0; lia|].
  pose proof (up_spec (fo + zlen d)). rewrite !zlen_app, IH, zeros_zlen by lia. lia.
Qed.
Definition padto (f : list Z) (pos : Z) : list Z := f ++ zeros (pos - zlen f).
Lemma padto_zlen f pos : zlen f <= pos -> zlen (padto f pos) = pos.
Proof. intros H. unfold padto. rewrite zlen_app, zeros_zlen by lia. lia. Qed.
Lemma padto_app f pos d q : zlen f <= pos -> pos + zlen d <= q -> padto (padto f pos ++ d) q = padto f pos ++ d ++ zeros (q - (pos + zlen d)).
Proof. intros H L. unfold padto at 1. rewrite zlen_app, padto_zlen, <- app_assoc by assumption. reflexivity. Qed.
Lemma padto_more f pos q : zlen f <= pos -> pos <= q -> padto f q = padto f pos ++ zeros (q - pos).
Proof. intros H L. unfold padto. rewrite <- app_assoc, zeros_app by lia. f_equal. f_equal. lia. Qed.
Lemma put_end f pos d : zlen f <= pos -> d <> [] -> put f pos d = padto f pos ++ d.
Proof.
  intros H N. destruct d as [|x d]; [congruence|]. unfold put. fold (zeros (pos - zlen f)). fold (padto f pos).
  pose proof (padto_zlen f pos H) as L. unfold zlen in L.
  replace (Z.to_nat pos) with (length (padto f pos)) by lia. rewrite firstn_all. f_equal.
  rewrite skipn_all2; [now rewrite app_nil_r|]. unfold zlen. cbn [length]. lia.
Qed.
(** reading a block *)
Lemma pack_nth fo l k d o : nth_error l k = Some d -> nth_error (lay fo (map zlen l)) k = Some o ->
  exists a b, pack fo l = a ++ d ++ b /\ zlen a = o - fo.
Proof.
  revert fo k. induction l as [|e l IH]; intros fo k Hd Ho; [destruct k; discriminate|].
  destruct k as [|k]; cbn [nth_error map lay] in *.
  - assert (e = d) by congruence. assert (fo = o) by congruence. subst. exists [], (zeros (up (o + zlen d) - (o + zlen d)) ++ pack (up (o + zlen d)) l). cbn [pack app].
    split; [reflexivity|]. change (zlen (@nil Z)) with 0. lia.
  - destruct (IH _ _ Hd Ho) as (a & b & E & L). exists (e ++ zeros (up (fo + zlen e) - (fo + zlen e)) ++ a), b. cbn [pack]. rewrite E, <- !app_assoc.
    split; [reflexivity|]. pose proof (up_spec (fo + zlen e)). rewrite !zlen_app, zeros_zlen, L by lia. lia.
Qed.
