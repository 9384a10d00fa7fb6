From Verif Require Import Base OmfRec_Model OmfRec_Spec OmfRec_Proofs OmfNames_Model OmfNames_Spec.

Definition name_ok (n : list Z) : Prop := Forall is_byte n /\ zlen n <= 255.

(** ** Readers over concatenated items *)
Lemma rd_name_app n r : zlen n <= 255 -> rd_name ([wrap 8 (zlen n)] ++ n ++ r) = Some (n, r).
Proof.
  intros H. unfold rd_name. cbn [app rd_byte bindo].
  pose proof (zlen_nonneg n).
  replace (wrap 8 (zlen n)) with (zlen n) by (symmetry; apply wrap_small; change (2 ^ 8) with 256; lia).
  unfold zlen. rewrite Nat2Z.id. rewrite app_length.
  destruct (Nat.leb_spec (length n) (length n + length r)); [|lia].
  rewrite firstn_app, firstn_all, Nat.sub_diag, skipn_app, skipn_all, Nat.sub_diag.
  cbn [firstn skipn]. rewrite app_nil_r. reflexivity.
Qed.

Lemma rd_many_concat {A B} (rd : list Z -> option (B * list Z)) (enc : A -> list Z) (f : A -> B) items :
  (forall x r, In x items -> rd (enc x ++ r) = Some (f x, r)) ->
  (forall x, In x items -> enc x <> []) ->
  forall fuel, (length (flat_map enc items) <= fuel)%nat ->
  rd_many rd fuel (flat_map enc items) = Some (map f items).
Proof.
  induction items as [|a items IH]; intros R N fuel F.
  - destruct fuel; reflexivity.
  - cbn [flat_map map] in *. rewrite app_length in F.
    assert (NE := N a (or_introl eq_refl)).
    destruct fuel as [|k]. { destruct (enc a); [congruence|cbn in F; lia]. }
    specialize (R a (flat_map enc items) (or_introl eq_refl)) as R1.
    destruct (enc a ++ flat_map enc items) as [|b l] eqn:E.
    + destruct (enc a); [congruence|discriminate].
    + cbn [rd_many]. rewrite R1. cbn [bindo]. rewrite IH.
      * reflexivity.
      * intros; apply R; right; assumption.
      * intros; apply N; right; assumption.
      * destruct (enc a); [congruence|cbn [length] in F; lia].
Qed.

Lemma concat_opt_app {A B} (f : A -> option (list B)) l1 l2 x y :
  concat_opt f l1 = Some x -> concat_opt f l2 = Some y -> concat_opt f (l1 ++ l2) = Some (x ++ y).
Proof.
  revert x; induction l1 as [|a l1 IH]; intros x H1 H2; cbn [concat_opt app] in *.
  - injection H1 as <-. exact H2.
  - destruct (f a) as [u|]; cbn [bindo] in *; [|discriminate].
    destruct (concat_opt f l1) as [v|]; cbn [bindo] in *; [|discriminate].
    injection H1 as <-. rewrite (IH v eq_refl H2). cbn [bindo]. rewrite app_assoc. reflexivity.
Qed.

Lemma concat_opt_groups {A B C} (f : A -> option (list B)) (mk : list C -> A) (g : C -> B) groups :
  (forall x, In x groups -> f (mk x) = Some (map g x)) ->
  concat_opt f (map mk groups) = Some (map g (concat groups)).
Proof.
  induction groups as [|x groups IH]; intros H; cbn [map concat concat_opt]; [reflexivity|].
  rewrite H by (left; reflexivity). cbn [bindo]. rewrite IH by (intros; apply H; right; assumption).
  cbn [bindo]. rewrite map_app. reflexivity.
Qed.

Lemma concat_opt_none {A B} (f : A -> option (list B)) l :
  Forall (fun a => f a = Some []) l -> concat_opt f l = Some [].
Proof. induction 1; cbn [concat_opt]; [reflexivity|]. rewrite H. cbn [bindo]. rewrite IHForall. reflexivity. Qed.

(** ** Records can be written and read back *)
Lemma records_readable rs :
  Forall rec_ok rs -> Forall (fun r => zlen (r_data r) <= 4050) rs ->
  exists bytes, omf_write_records rs = Ok bytes /\ read_views bytes = Some (map meaning rs).
Proof.
  intros R S.
  assert (E : exists bytes, omf_write_records rs = Ok bytes).
  { induction R as [|r rs R1 R IH]; cbn [omf_write_records]; [eauto|].
    apply Forall_cons_iff in S as [S1 S]. destruct (write_record_total r R1 S1) as [b ->].
    destruct (IH S) as [bs ->]. cbn [bindr]. eauto. }
  destruct E as [bytes E]. exists bytes. split; [exact E|].
  exact (proj2 (omf_records_roundtrip rs bytes R E)).
Qed.

(** ** LNAMES *)
Definition enc_name (n : list Z) : list Z := [wrap 8 (zlen n)] ++ n.
Definition text (cs : bool) (n : list Z) : list Z := if cs then n else strupr n.

Lemma text_len cs n : zlen (text cs n) = zlen n.
Proof. unfold text, strupr, zlen. destruct cs; [reflexivity|]. rewrite map_length. reflexivity. Qed.
Lemma toupper_byte c : is_byte c -> is_byte (toupper c).
Proof. unfold toupper, is_byte. destruct ((97 <=? c) && (c <=? 122)) eqn:E; lia. Qed.
Lemma text_ok cs n : name_ok n -> name_ok (text cs n).
Proof.
  intros [B L]. split; [|rewrite text_len; exact L].
  unfold text, strupr. destruct cs; [exact B|].
  rewrite Forall_map. eapply Forall_impl; [|exact B]. apply toupper_byte.
Qed.

Lemma enc_name_byte n : name_ok n -> Forall is_byte (enc_name n).
Proof.
  intros [B _]. unfold enc_name. constructor; [|exact B].
  pose proof (wrap_range 8 (zlen n)). unfold is_byte. change (2 ^ 8) with 256 in *. lia.
Qed.
Lemma flat_map_byte {A} (enc : A -> list Z) l :
  Forall (fun x => Forall is_byte (enc x)) l -> Forall is_byte (flat_map enc l).
Proof. induction 1; cbn [flat_map]; [constructor|]. apply Forall_app; auto. Qed.

Fixpoint from (n : nat) (start : Z) : list Z :=
  match n with O => [] | S k => start :: from k (start + 1) end.
Lemma from_nth n start k : (k < n)%nat -> nth_error (from n start) k = Some (start + Z.of_nat k).
Proof.
  revert start k; induction n; intros start k H; [lia|]. destruct k; cbn [from nth_error].
  - f_equal; lia.
  - rewrite IHn by lia. f_equal; lia.
Qed.
Lemma from_length n start : length (from n start) = n.
Proof. revert start; induction n; intros; cbn [from length]; auto. Qed.

Lemma zlen0 {A} (l : list A) : zlen l = 0 -> l = [].
Proof. destruct l; [reflexivity|]. rewrite zlen_cons. pose proof (zlen_nonneg l). lia. Qed.

Lemma zlen_enc_name n : zlen (enc_name n) = 1 + zlen n.
Proof. unfold enc_name. cbn [app]. apply zlen_cons. Qed.

Lemma lnames_groups cs q : forall nb items si recs idxs si',
  Forall name_ok nb -> Forall name_ok q -> zlen (flat_map enc_name nb) <= 1021 ->
  lnames_loop cs q (flat_map enc_name nb) items si = (recs, idxs, si') ->
  exists groups,
    recs = map (fun g => mk_rec CMD_LNAMES (flat_map enc_name g)) groups /\
    concat groups = nb ++ map (text cs) q /\
    Forall (fun g => zlen (flat_map enc_name g) <= 1021) groups /\
    idxs = from (length q) (items + 1) /\
    (nb <> [] -> si' = items + zlen q).
Proof.
  induction q as [|n q IH]; intros nb items si recs idxs si' NB Q L E; cbn [lnames_loop] in E.
  - destruct (zlen (flat_map enc_name nb) =? 0) eqn:Z0; cbn [negb] in E; injection E as <- <- <-.
    + exists []. assert (NE : nb = []).
      { destruct nb as [|a nb]; [reflexivity|]. cbn [flat_map] in Z0. rewrite zlen_app, zlen_enc_name in Z0.
        pose proof (zlen_nonneg a). pose proof (zlen_nonneg (flat_map enc_name nb)). lia. }
      subst nb. cbn [map concat app]. repeat split; auto. congruence.
    + exists [nb]. cbn [map concat]. rewrite !app_nil_r. change (zlen (@nil (list Z))) with 0.
      repeat split; auto. lia.
  - apply Forall_cons_iff in Q as [N1 Q]. set (buf := flat_map enc_name nb) in *.
    assert (TX : enc_name (text cs n) = [wrap 8 (zlen n)] ++ text cs n) by (unfold enc_name; rewrite text_len; reflexivity).
    assert (N2 := text_ok cs n N1). pose proof (zlen_nonneg n) as P1. pose proof (zlen_nonneg buf) as P2.
    destruct N1 as [_ N1].
    destruct (zlen buf + zlen n + 4 >? MAX_LNAME_SIZE) eqn:F; unfold MAX_LNAME_SIZE in F.
    + assert (NZ : (zlen buf =? 0) = false) by lia.
      rewrite NZ in E. cbn [negb] in E. cbn [app] in E.
      destruct (lnames_loop cs q (wrap 8 (zlen n) :: (if cs then n else strupr n)) (items + 1) items)
        as [[recs1 idxs1] si1] eqn:E1.
      injection E as <- <- <-.
      change (wrap 8 (zlen n) :: (if cs then n else strupr n)) with ([wrap 8 (zlen n)] ++ text cs n) in E1.
      rewrite <- TX in E1. rewrite <- (app_nil_r (enc_name (text cs n))) in E1.
      change (enc_name (text cs n) ++ []) with (flat_map enc_name [text cs n]) in E1.
      apply IH in E1; [|auto|auto|cbn [flat_map]; rewrite app_nil_r, zlen_enc_name, text_len; lia].
      destruct E1 as (groups & -> & C & SZ & -> & SI).
      exists (nb :: groups). cbn [map concat]. rewrite C. cbn [map app length from].
      repeat split; auto. intros _. rewrite SI by discriminate. rewrite zlen_cons. lia.
    + change (if cs then n else strupr n) with (text cs n) in E. rewrite <- TX in E.
      assert (FM : buf ++ enc_name (text cs n) = flat_map enc_name (nb ++ [text cs n])).
      { rewrite flat_map_app. cbn [flat_map]. rewrite app_nil_r. reflexivity. }
      rewrite FM in E.
      destruct (lnames_loop cs q (flat_map enc_name (nb ++ [text cs n])) (items + 1) si)
        as [[recs1 idxs1] si1] eqn:E1.
      injection E as <- <- <-.
      apply IH in E1; [|apply Forall_app; auto|auto|rewrite <- FM, zlen_app, zlen_enc_name, text_len; lia].
      destruct E1 as (groups & -> & C & SZ & -> & SI).
      exists groups. cbn [app map concat length from]. rewrite C, <- app_assoc. cbn [app].
      repeat split; auto. intros _. rewrite SI by (destruct nb; discriminate). rewrite zlen_cons. lia.
Qed.

Lemma lnames_rec_ok g : Forall name_ok g -> rec_ok (mk_rec CMD_LNAMES (flat_map enc_name g)).
Proof.
  intros H. unfold rec_ok, mk_rec. cbn [r_is32 r_data r_cmd r_d].
  split; [left; reflexivity|]. split.
  - apply flat_map_byte. eapply Forall_impl; [|exact H]. apply enc_name_byte.
  - left. split; [|reflexivity]. unfold CMD_LNAMES. cbn; auto 20.
Qed.

Lemma rd_lnames_enc g : Forall name_ok g -> rd_lnames (flat_map enc_name g) = Some g.
Proof.
  intros H. unfold rd_lnames. rewrite Forall_forall in H. rewrite <- (map_id g) at 3.
  apply rd_many_concat; [|discriminate|lia].
  intros x r I. unfold enc_name. rewrite <- app_assoc. apply rd_name_app. exact (proj2 (H x I)).
Qed.

Lemma Forall_concat_inv {A} (P : A -> Prop) groups : Forall P (concat groups) -> Forall (Forall P) groups.
Proof.
  induction groups; cbn [concat]; intros H; [constructor|]. apply Forall_app in H as [H1 H2]. constructor; auto.
Qed.

Theorem lnames_correct cs q recs idxs si :
  Forall name_ok q -> omf_write_lnames cs q = (recs, idxs, si) ->
  exists bytes vs,
    omf_write_records recs = Ok bytes /\ read_views bytes = Some vs /\
    lname_table vs = Some ([] :: map (text cs) q) /\
    Forall (fun r => zlen (r_data r) <= 1021) recs /\
    length idxs = length q /\
    (forall k n i, nth_error q k = Some n -> nth_error idxs k = Some i ->
       2 <= i /\ nth_error ([] :: map (text cs) q) (Z.to_nat (i - 1)) = Some (text cs n)) /\
    si = zlen ([] :: map (text cs) q).
Proof.
  intros Q E. unfold omf_write_lnames in E.
  change [0] with (flat_map enc_name [[]]) in E.
  assert (N0 : name_ok []) by (split; [apply Forall_nil|rewrite zlen_nil; lia]).
  apply lnames_groups in E; [|apply Forall_cons; [exact N0|apply Forall_nil]|assumption|vm_compute; discriminate].
  destruct E as (groups & -> & C & SZ & -> & SI).
  assert (GOK : Forall (Forall name_ok) groups).
  { apply Forall_concat_inv. rewrite C. apply Forall_cons; [exact N0|].
    rewrite Forall_map. eapply Forall_impl; [|exact Q]. apply text_ok. }
  destruct (records_readable (map (fun g => mk_rec CMD_LNAMES (flat_map enc_name g)) groups)) as (bytes & B1 & B2).
  { rewrite Forall_map. eapply Forall_impl; [|exact GOK]. apply lnames_rec_ok. }
  { rewrite Forall_map. eapply Forall_impl; [|exact SZ]. cbn [r_data mk_rec]. intros; lia. }
  eexists bytes, _. split; [exact B1|]. split; [exact B2|]. split; [|split; [|split; [|split]]].
  - unfold lname_table. rewrite map_map.
    rewrite (concat_opt_groups _ _ (fun n => n)).
    + rewrite map_id, C. reflexivity.
    + intros g I. rewrite Forall_forall in GOK. cbn [meaning mk_rec r_d r_cmd r_is32 r_data CMD_LNAMES].
      rewrite map_id. apply rd_lnames_enc. apply GOK. exact I.
  - rewrite Forall_map. exact SZ.
  - apply from_length.
  - intros k n i H1 H2. assert (K : (k < length q)%nat) by (apply nth_error_Some; congruence).
    rewrite from_nth in H2 by assumption. injection H2 as <-. split; [lia|].
    change (1 + 1) with 2. replace (Z.to_nat (2 + Z.of_nat k - 1)) with (S k) by lia. cbn [nth_error].
    apply map_nth_error. exact H1.
  - rewrite SI by discriminate. unfold zlen. cbn [length]. rewrite map_length. lia.
Qed.

(** ** COMDEF numbers *)
Lemma put_le_eq n v : 0 <= v -> put_le n v = le_bytes n v.
Proof.
  revert v; induction n; intros v H; cbn [put_le le_bytes]; [reflexivity|].
  rewrite Z.rem_mod_nonneg by lia. rewrite Z.shiftr_div_pow2 by lia. change (2 ^ 8) with 256.
  rewrite IHn by (apply Z.div_pos; lia). reflexivity.
Qed.

Theorem comdef_number_roundtrip v r : 0 <= v < 2 ^ 32 ->
  rd_comnum (put_comdef_number v ++ r) = Some (v, r) /\
  zlen (put_comdef_number v) = get_size_of_comdef_number v /\
  Forall is_byte (put_comdef_number v) /\ zlen (put_comdef_number v) <= 5.
Proof.
  intros H. change (2 ^ 32) with 4294967296 in H.
  unfold put_comdef_number, get_size_of_comdef_number.
  destruct (v <? 128) eqn:E1; [|destruct (v <=? 65535) eqn:E2; [|change (2 ^ 24 - 1) with 16777215; destruct (v <=? 16777215) eqn:E3]].
  - assert (W : wrap 8 v = v) by (apply wrap_small; change (2 ^ 8) with 256; lia). rewrite W.
    split; [|split; [reflexivity|split; [apply Forall_cons; [unfold is_byte; lia|apply Forall_nil]|vm_compute; discriminate]]].
    unfold rd_comnum. cbn [app rd_byte bindo]. replace (v <=? 128) with true by lia. reflexivity.
  - change (Z.to_nat (3 - 1)) with 2%nat. rewrite put_le_eq by lia.
    split; [|split; [reflexivity|split; [constructor; [unfold is_byte; lia|apply le_bytes_byte]|vm_compute; discriminate]]].
    unfold rd_comnum. cbn [app le_bytes rd_byte bindo Z.leb Z.eqb rd_word]. cbn. f_equal. f_equal. lia.
  - change (Z.to_nat (4 - 1)) with 3%nat. rewrite put_le_eq by lia.
    split; [|split; [reflexivity|split; [constructor; [unfold is_byte; lia|apply le_bytes_byte]|vm_compute; discriminate]]].
    unfold rd_comnum. cbn. f_equal. f_equal. lia.
  - change (Z.to_nat (5 - 1)) with 4%nat. rewrite put_le_eq by lia.
    split; [|split; [reflexivity|split; [constructor; [unfold is_byte; lia|apply le_bytes_byte]|vm_compute; discriminate]]].
    unfold rd_comnum. cbn. f_equal. f_equal. lia.
Qed.
