(** C15: names in the string table. *)
From Verif Require Import Base Coff_Model Coff_Spec Data_Proofs.
From Coq Require Import Lia.

Definition packed (l : longnames) : list Z := flat_map (fun s => s ++ [0]) (l_items l).
Definition ln_ok (l : longnames) : Prop := l_size l = wrap 32 (4 + zlen (packed l)).
Definition ext (l l' : longnames) : Prop := exists more, l_items l' = l_items l ++ more.
Lemma ext_refl l : ext l l. Proof. exists []. now rewrite app_nil_r. Qed.
Lemma ext_trans a b c : ext a b -> ext b c -> ext a c.
Proof. intros [x X] [y Y]. exists (x ++ y). now rewrite Y, X, app_assoc. Qed.
Definition final (L : longnames) : Prop := ln_ok L /\ 4 + zlen (packed L) < 2 ^ 32.

Lemma alloc_ok l s o l' : ln_ok l -> Coff_AllocString l s = (o, l') -> ln_ok l' /\ ext l l'.
Proof.
  intros K E. injection E as <- <-. split.
  - unfold ln_ok in *. cbn [l_size l_items]. unfold packed. cbn [l_items]. rewrite K. rewrite flat_map_app. cbn [flat_map]. rewrite app_nil_r, !zlen_app.
    unfold wrap. rewrite Zplus_mod_idemp_l. f_equal. unfold packed, zlen. cbn [length]. lia.
  - exists [s]. reflexivity.
Qed.
Lemma cstring_app s r : Forall (fun x => 1 <= x < 256) s -> cstring (s ++ 0 :: r) = Some s.
Proof. induction 1 as [|x s X _ IH]; cbn [cstring app]. - reflexivity. - destruct (Z.eqb_spec x 0); [lia|]. now rewrite IH. Qed.
Lemma slice_app a b c i n : i = zlen a -> n = zlen b -> slice i n (a ++ b ++ c) = Some b.
Proof.
  intros -> ->. unfold slice. rewrite !zlen_app. pose proof (zlen_nonneg a). pose proof (zlen_nonneg b). pose proof (zlen_nonneg c).
  destruct (Z.leb_spec 0 (zlen a)); [|lia]. destruct (Z.leb_spec 0 (zlen b)); [|lia]. destruct (Z.leb_spec (zlen a + zlen b) (zlen a + (zlen b + zlen c))); [|lia].
  cbn [andb]. f_equal. unfold zlen. rewrite !Nat2Z.id, skipn_app, Nat.sub_diag, skipn_all. cbn [app skipn]. rewrite firstn_app, Nat.sub_diag, firstn_all. cbn [firstn]. apply app_nil_r.
Qed.
Lemma string_table_size L : final L -> number 0 4 (string_table L) = Some (zlen (string_table L)).
Proof.
  intros [K B]. unfold number, string_table. rewrite <- (app_nil_l (le_bytes 4 (l_size L) ++ _)). rewrite slice_app with (a := []); [|reflexivity|].
  2: { unfold zlen. rewrite le_bytes_length. reflexivity. }
  f_equal. rewrite le_val_le_bytes, K. change (2 ^ (8 * Z.of_nat 4)) with (2 ^ 32). pose proof (zlen_nonneg (packed L)). unfold wrap.
  rewrite Z.mod_mod by lia. rewrite Z.mod_small by lia. cbn [app]. rewrite zlen_app. unfold packed. unfold zlen at 2. rewrite le_bytes_length. lia.
Qed.
(** an offset that was handed out finds the name *)
Lemma alloc_read l s o l' L : ln_ok l -> Coff_AllocString l s = (o, l') -> ext l' L -> final L -> Forall (fun x => 1 <= x < 256) s ->
  rd_string (string_table L) o = Some s /\ 4 <= o < 2 ^ 32 /\ o + zlen s < zlen (string_table L) /\ o = 4 + zlen (packed l).
Proof.
  intros K E [more M] F S'. injection E as <- <-. cbn [l_items] in M.
  assert (P : packed L = packed l ++ s ++ [0] ++ flat_map (fun s => s ++ [0]) more).
  { unfold packed. rewrite M, !flat_map_app. cbn [flat_map]. rewrite <- !app_assoc. reflexivity. }
  destruct F as [KL B]. pose proof B as B'. rewrite P, !zlen_app in B'. pose proof (zlen_nonneg (packed l)). pose proof (zlen_nonneg s).
  pose proof (zlen_nonneg (flat_map (fun s => s ++ [0]) more)). change (zlen [0]) with 1 in B'.
  assert (Z : l_size l = 4 + zlen (packed l)). { rewrite K. apply wrap_small. lia. }
  rewrite Z. split; [|split; [lia|split; [|reflexivity]]].
  - unfold rd_string. rewrite string_table_size by (split; assumption). rewrite Z.eqb_refl. destruct (Z.leb_spec 4 (4 + zlen (packed l))); [|lia].
    unfold string_table. fold (packed L). rewrite P.
    replace (Z.to_nat (4 + zlen (packed l))) with (length (le_bytes 4 (l_size L) ++ packed l)) by (rewrite app_length, le_bytes_length; unfold zlen; lia).
    rewrite app_assoc, skipn_app, skipn_all, Nat.sub_diag. cbn [skipn app andb]. now apply cstring_app.
  - unfold string_table. fold (packed L). rewrite P, !zlen_app. change (zlen [0]) with 1. unfold zlen at 3. rewrite le_bytes_length. lia.
Qed.

(** * names in symbols *)
Definition named (L : longnames) (nm : list Z + Z) (name : list Z) : Prop :=
  match nm with
  | inl n => n = name /\ zlen name <= 8 /\ name <> []
  | inr o => rd_string (string_table L) o = Some name /\ 4 <= o < 2 ^ 32
  end /\ Forall (fun x => 1 <= x < 256) name.
Lemma alloc_named l name nm l' : ln_ok l -> name_ok name -> alloc_name l name = (nm, l') -> ln_ok l' /\ ext l l' /\ forall L, ext l' L -> final L -> named L nm name.
Proof.
  intros K [N B]. unfold alloc_name. destruct (zlen name >? 8) eqn:G.
  - destruct (Coff_AllocString l name) as [p k] eqn:A. intros E. injection E as <- <-. destruct (alloc_ok _ _ _ _ K A). split; [assumption|]. split; [assumption|].
    intros L X F. destruct (alloc_read _ _ _ _ _ K A X F B) as (R & Q & _). split; [|assumption]. split; assumption.
  - intros E. injection E as <- <-. split; [assumption|]. split; [apply ext_refl|]. intros L _ _. split; [|assumption]. split; [reflexivity|]. split; [|assumption]. lia.
Qed.
Lemma trim_app s r : Forall (fun x => 1 <= x < 256) s -> trim (s ++ 0 :: r) = s.
Proof. induction 1 as [|x s X _ IH]; cbn [trim app]. - reflexivity. - destruct (Z.eqb_spec x 0); [lia|]. now rewrite IH. Qed.
Lemma trim_all s : Forall (fun x => 1 <= x < 256) s -> trim s = s.
Proof. induction 1 as [|x s X _ IH]; cbn [trim]. - reflexivity. - destruct (Z.eqb_spec x 0); [lia|]. now rewrite IH. Qed.
Lemma trim_pad s n r : Forall (fun x => 1 <= x < 256) s -> (length s <= n)%nat -> ((length s < n)%nat -> hd 1 r = 0) -> (length s + length r >= n)%nat -> trim (firstn n (s ++ r)) = s.
Proof.
  intros S' L H R. rewrite firstn_app. replace (firstn n s) with s by (symmetry; now apply firstn_all2).
  destruct (Nat.eq_dec (length s) n) as [E|E].
  - rewrite E, Nat.sub_diag. cbn [firstn]. rewrite app_nil_r. now apply trim_all.
  - destruct r as [|x r]. { cbn in R. lia. } cbn [hd] in H. rewrite H by lia. destruct (n - length s)%nat eqn:D; [lia|]. cbn [firstn]. now apply trim_app.
Qed.
Lemma firstn_In {A} (x : A) n l : In x (firstn n l) -> In x l.
Proof. intros H. rewrite <- (firstn_skipn n l). apply in_or_app. now left. Qed.
Lemma name_field L nm name : named L nm name ->
  rd_name (string_table L) (match nm with inl n => firstn 8 (n ++ repeat 0 8) | inr strpos => le_bytes 4 0 ++ le_bytes 4 strpos end) = Some name.
Proof.
  intros [H B]. unfold rd_name. destruct nm as [n|o].
  - destruct H as (-> & Z & N). destruct name as [|x r]; [congruence|]. inversion B as [|? ? X _]; subst.
    assert (Q : le_val (firstn 4 (firstn 8 ((x :: r) ++ repeat 0 8))) =? 0 = false).
    { apply Z.eqb_neq. change (firstn 4 (firstn 8 ((x :: r) ++ repeat 0 8))) with (x :: firstn 3 (firstn 7 (r ++ repeat 0 8))). cbn [le_val].
      assert (0 <= le_val (firstn 3 (firstn 7 (r ++ repeat 0 8)))).
      { apply le_val_range. rewrite Forall_forall in B |- *. intros y Y. apply firstn_In, firstn_In in Y. apply in_app_or in Y as [Y|Y]. { specialize (B y (or_intror Y)). unfold is_byte. lia. } apply repeat_spec in Y. subst. unfold is_byte. lia. }
      lia. }
    rewrite Q. f_equal. apply trim_pad; [assumption| | |].
    + unfold zlen in Z. lia.
    + reflexivity.
    + rewrite repeat_length. lia.
  - destruct H as [R Q]. change (firstn 4 (le_bytes 4 0 ++ le_bytes 4 o)) with (le_bytes 4 0). change (skipn 4 (le_bytes 4 0 ++ le_bytes 4 o)) with (le_bytes 4 o).
    rewrite !le_val_le_bytes. change (0 mod 2 ^ (8 * Z.of_nat 4) =? 0) with true. cbn [andb]. change (2 ^ (8 * Z.of_nat 4)) with (2 ^ 32). rewrite Z.mod_small by lia. assumption.
Qed.

(** * names in section headers *)
Definition dig (a : option Z) (d : Z) : option Z := match a with Some v => if (48 <=? d) && (d <=? 57) then Some (10 * v + (d - 48)) else None | None => None end.
Lemma decimal_spec : forall fuel n acc v, 0 <= n < 10 ^ Z.of_nat fuel -> (0 < fuel)%nat ->
  exists ds, decimal fuel n acc = ds ++ acc /\ fold_left dig ds (Some v) = Some (v * 10 ^ zlen ds + n) /\ Forall (fun x => 48 <= x < 58) ds /\ ds <> [] /\
             forall k, 0 < k -> n < 10 ^ k -> zlen ds <= k.
Proof.
  induction fuel as [|k IH]; intros n acc v R P. { lia. }
  cbn [decimal]. pose proof (Z.mod_pos_bound n 10 ltac:(lia)) as M. pose proof (Z.div_mod n 10 ltac:(lia)) as D.
  destruct (Z.eqb_spec (n / 10) 0) as [Q|Q].
  - exists [48 + n mod 10]. split; [reflexivity|]. split; [|split; [|split; [discriminate|]]].
    + cbn [fold_left dig]. destruct (Z.leb_spec 48 (48 + n mod 10)); [|lia]. destruct (Z.leb_spec (48 + n mod 10) 57); [|lia]. cbn [andb]. f_equal.
      change (zlen [48 + n mod 10]) with 1. rewrite Z.pow_1_r. lia.
    + constructor; [lia|constructor].
    + intros j J _. change (zlen [48 + n mod 10]) with 1. lia.
  - assert (0 <= n / 10) by (apply Z.div_pos; lia).
    assert (n / 10 < 10 ^ Z.of_nat k). { apply Z.div_lt_upper_bound; [lia|]. replace (10 * 10 ^ Z.of_nat k) with (10 ^ Z.of_nat (S k)); [lia|]. rewrite Nat2Z.inj_succ, Z.pow_succ_r; lia. }
    assert (0 < k)%nat. { destruct k; [|lia]. exfalso. change (10 ^ Z.of_nat 0) with 1 in *. lia. }
    destruct (IH (n / 10) ((48 + n mod 10) :: acc) v) as (ds & E & F & B & N & L); [lia|assumption|].
    exists (ds ++ [48 + n mod 10]). split; [rewrite E, <- app_assoc; reflexivity|]. split; [|split; [|split]].
    + rewrite fold_left_app, F. cbn [fold_left dig]. destruct (Z.leb_spec 48 (48 + n mod 10)); [|lia]. destruct (Z.leb_spec (48 + n mod 10) 57); [|lia]. cbn [andb]. f_equal.
      rewrite zlen_app. change (zlen [48 + n mod 10]) with 1. rewrite Z.pow_add_r, Z.pow_1_r by (pose proof (zlen_nonneg ds); lia). nia.
    + apply Forall_app. split; [assumption|]. constructor; [lia|constructor].
    + destruct ds; discriminate.
    + intros j J Lt. rewrite zlen_app. change (zlen [48 + n mod 10]) with 1. assert (j <> 1). { intros ->. change (10 ^ 1) with 10 in Lt. apply Q. apply Z.div_small. lia. }
      enough (zlen ds <= j - 1) by lia. apply L; [lia|]. apply Z.div_lt_upper_bound; [lia|]. replace (10 * 10 ^ (j - 1)) with (10 ^ j); [lia|].
      replace j with (Z.succ (j - 1)) at 1 by lia. rewrite Z.pow_succ_r; lia.
Qed.
Lemma header_name_read l name old nm l' : ln_ok l -> name_ok name -> hd 0 name <> 47 -> length old = 8%nat -> 4 + zlen (packed l) < 10 ^ 7 -> header_name l name old = (nm, l') ->
  ln_ok l' /\ ext l l' /\ length nm = 8%nat /\ zlen (packed l') = zlen (packed l) + (if zlen name <=? 8 then 0 else zlen name + 1) /\
  forall L, ext l' L -> final L -> rd_section_name (string_table L) nm = Some name.
Proof.
  intros K [N B] Sl Old Sm. unfold header_name. destruct (Z.leb_spec (zlen name) 8) as [Le|Gt].
  - intros E. apply pair_equal_spec in E as [<- <-]. split; [assumption|]. split; [apply ext_refl|]. split; [rewrite firstn_length, app_length, repeat_length; lia|]. split; [lia|]. intros L _ _.
    unfold rd_section_name. rewrite trim_pad; [|assumption|unfold zlen in Le; lia|reflexivity|rewrite repeat_length; lia].
    destruct name as [|x [|y r]]; [reflexivity| |]. { destruct x as [|p|p]; try reflexivity. do 6 (destruct p as [p|p|]; try reflexivity). }
    cbn [hd] in Sl. destruct x as [|p|p]; try reflexivity. do 6 (destruct p as [p|p|]; try reflexivity). exfalso. now apply Sl.
  - destruct (Coff_AllocString l name) as [o k] eqn:A. intros E. apply pair_equal_spec in E as [<- <-]. destruct (alloc_ok _ _ _ _ K A) as [K' X'].
    assert (O : o = 4 + zlen (packed l)). { injection A as <- _. rewrite K. apply wrap_small. pose proof (zlen_nonneg (packed l)). change (2 ^ 32) with 4294967296. change (10 ^ 7) with 10000000 in Sm. lia. }
    pose proof (zlen_nonneg (packed l)) as Pn.
    destruct (decimal_spec 10 o [] 0) as (ds & E & F & D & Nn & Ln); [change (10 ^ Z.of_nat 10) with 10000000000; change (10 ^ 7) with 10000000 in Sm; lia|lia|].
    rewrite app_nil_r in E. specialize (Ln 7 ltac:(lia) ltac:(lia)). rewrite E.
    assert (T : trim (firstn 8 ((47 :: ds ++ [0]) ++ skipn (length (47 :: ds ++ [0])) old)) = 47 :: ds).
    { change (47 :: ds ++ [0]) with ((47 :: ds) ++ [0]). rewrite <- app_assoc. apply trim_pad.
      - constructor; [lia|]. eapply Forall_impl; [|exact D]. cbn. intros; lia.
      - cbn [length]. unfold zlen in Ln. lia.
      - reflexivity.
      - rewrite app_length, skipn_length. cbn [length app]. rewrite ?app_length. cbn [length]. lia. }
    split; [assumption|]. split; [assumption|]. split; [|split].
    + rewrite firstn_length, app_length, skipn_length. cbn [length]. rewrite app_length. cbn [length]. unfold zlen in Ln. lia.
    + injection A as _ <-. unfold packed. cbn [l_items]. rewrite flat_map_app, zlen_app. cbn [flat_map]. rewrite app_nil_r, zlen_app. reflexivity.
    + intros L XL FL. unfold rd_section_name. rewrite T. destruct ds as [|d ds]; [congruence|]. assert (Dg : digits (d :: ds) = Some o) by (rewrite <- (Z.add_0_l o), <- (Z.mul_0_l (10 ^ zlen (d :: ds))); exact F).
      rewrite Dg.
      exact (proj1 (alloc_read _ _ _ _ _ K A XL FL B)).
Qed.
