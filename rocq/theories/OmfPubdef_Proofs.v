From Verif Require Import Base OmfRec_Model OmfRec_Spec OmfRec_Proofs OmfNames_Model OmfNames_Spec OmfNames_Proofs.

Definition p32 (s : pubsym) : bool := p_offset s >? 0xffff.
Definition enc_pub (s : pubsym) : list Z :=
  [wrap 8 (zlen (p_name s))] ++ p_name s ++ le_bytes (if p32 s then 4 else 2) (p_offset s) ++ [0].
(** the decorated text is at most MANGLE_BYTES longer than the name *)
Definition pub_ok (s : pubsym) : Prop :=
  name_ok (p_name s) /\ zlen (p_name s) <= p_name_size s + 8 /\ 0 <= p_offset s < 2 ^ 32.
Definition pub_base (segs : nat -> seginfo) (g : option nat) : base_info :=
  match g with
  | None => {| grp_idx := 0; seg_idx := 0; frame := 0 |}
  | Some s => {| grp_idx := sg_grpidx (segs s); seg_idx := sg_segidx (segs s); frame := 0 |}
  end.
Definition pub_entry (segs : nat -> seginfo) (s : pubsym) : base_info * list Z * Z :=
  (pub_base segs (p_seg s), p_name s, p_offset s).
Definition plain (segs : nat -> seginfo) (s : pubsym) : Prop :=
  match p_seg s with Some g => sg_comdat (segs g) = false | None => True end.
Definition comdat (segs : nat -> seginfo) (s : pubsym) : Prop :=
  exists g, p_seg s = Some g /\ sg_comdat (segs g) = true.

Definition grp_rec (segs : nat -> seginfo) (x : option nat * bool * list pubsym) : omf_rec :=
  let '(cseg, c32, g) := x in
  {| r_cmd := CMD_PUBDEF; r_is32 := if c32 then 1 else 0; r_data := flat_map enc_pub g;
     r_d := D_base (pub_base segs cseg) |}.
Definition grp_ok (x : option nat * bool * list pubsym) : Prop :=
  let '(cseg, c32, g) := x in
  Forall (fun s => p_seg s = cseg /\ p32 s = c32 /\ pub_ok s) g /\ zlen (flat_map enc_pub g) <= 1020.

Lemma write_at_firstn buf size e data : firstn size buf = data -> length data = size ->
  firstn (size + length e) (write_at buf size e) = data ++ e.
Proof.
  intros H L. unfold write_at. rewrite H.
  rewrite firstn_app, firstn_all2 by lia. f_equal.
  replace (size + length e - length data)%nat with (length e + 0)%nat by lia.
  rewrite firstn_app_2. cbn [firstn]. apply app_nil_r.
Qed.
Lemma seg_eqb_eq a b : seg_eqb a b = true -> a = b.
Proof. destruct a, b; cbn; intros; try discriminate; [|reflexivity]. apply Nat.eqb_eq in H. congruence. Qed.
Lemma enc_pub_len s : zlen (enc_pub s) = zlen (p_name s) + 2 + (if p32 s then 4 else 2).
Proof.
  unfold enc_pub. cbn [app]. rewrite zlen_cons, !zlen_app. unfold zlen at 2. rewrite le_bytes_length.
  change (zlen [0]) with 1. destruct (p32 s); lia.
Qed.

Definition pbudget (nb q : list pubsym) : nat :=
  (2 * length q + match nb, q with [], _ :: _ => 0 | _, _ => 1 end)%nat.

Lemma pub_groups cs segs fuel : forall q idx si buf size cseg c32 nb,
  Forall (plain segs) q -> Forall pub_ok q ->
  firstn size buf = flat_map enc_pub nb -> length (flat_map enc_pub nb) = size ->
  grp_ok (cseg, c32, nb) -> (pbudget nb q <= fuel)%nat ->
  exists groups, pubdef_loop fuel cs segs q idx si buf size cseg c32 = Ok (map (grp_rec segs) groups, idx, si) /\
    concat (map snd groups) = nb ++ q /\ Forall grp_ok groups.
Proof.
  induction fuel as [|fuel IH]; intros q idx si buf size cseg c32 nb PL OK D LN GO F.
  { unfold pbudget in F. destruct nb, q; cbn [length] in F; lia. }
  assert (NB : size = 0%nat -> nb = []).
  { intros Z. destruct nb as [|x nb]; [reflexivity|]. exfalso. rewrite Z in LN. unfold enc_pub in LN. cbn in LN. discriminate. }
  assert (FL : (if Nat.eqb size 0 then [] else [pub_rec segs buf size cseg c32]) =
               map (grp_rec segs) (if Nat.eqb size 0 then [] else [(cseg, c32, nb)])).
  { destruct (Nat.eqb size 0); [reflexivity|]. cbn [map grp_rec]. unfold pub_rec, pub_base. rewrite D. reflexivity. }
  assert (FLC : concat (map snd (if Nat.eqb size 0 then [] else [(cseg, c32, nb)])) = nb).
  { destruct (Nat.eqb_spec size 0); cbn [map snd concat]; [symmetry; auto|apply app_nil_r]. }
  assert (FLO : Forall grp_ok (if Nat.eqb size 0 then [] else [(cseg, c32, nb)])).
  { destruct (Nat.eqb size 0); [apply Forall_nil|]. apply Forall_cons; [exact GO|apply Forall_nil]. }
  cbn [pubdef_loop]. cbv zeta. rewrite FL. destruct q as [|s rest].
  { eexists. split; [reflexivity|]. rewrite app_nil_r. split; assumption. }
  apply Forall_cons_iff in PL as [PL1 PL]. apply Forall_cons_iff in OK as [OK1 OK].
  fold (p32 s).
  match goal with |- context [match p_seg s with Some g => if _ then _ else ?P | None => _ end] => set (body := P) end.
  assert (B : exists groups, body = Ok (map (grp_rec segs) groups, idx, si) /\
    concat (map snd groups) = nb ++ s :: rest /\ Forall grp_ok groups).
  2:{ destruct B as (groups & E & X). exists groups. split; [|exact X].
      unfold plain in PL1. destruct (p_seg s); [rewrite PL1|]; exact E. }
  unfold body. destruct (negb (Nat.eqb size 0) && _) eqn:C.
  - apply andb_prop in C as [C1 C2].
    destruct (IH (s :: rest) idx si buf 0%nat None false []) as (groups & E & CC & GG).
    { apply Forall_cons; assumption. }
    { apply Forall_cons; assumption. }
    { reflexivity. }
    { reflexivity. }
    { cbn. split; [apply Forall_nil|discriminate]. }
    { unfold pbudget in *. destruct nb; [|lia]. cbn in LN. subst size. discriminate. }
    rewrite E. cbn [bindr]. exists ((if Nat.eqb size 0 then [] else [(cseg, c32, nb)]) ++ groups).
    rewrite !map_app, concat_app, FLC, CC. split; [reflexivity|]. split; [reflexivity|].
    apply Forall_app. split; assumption.
  - fold (enc_pub s).
    destruct OK1 as (N1 & N2 & N3).
    destruct (IH rest idx si (write_at buf size (enc_pub s)) (size + length (enc_pub s))%nat (p_seg s) (p32 s) (nb ++ [s]))
      as (groups & E & CC & GG).
    { assumption. }
    { assumption. }
    { rewrite flat_map_app. cbn [flat_map]. rewrite app_nil_r. apply write_at_firstn; assumption. }
    { rewrite flat_map_app, app_length. cbn [flat_map]. rewrite app_nil_r. lia. }
    { cbn [grp_ok] in GO |- *. destruct GO as [G1 G2]. split.
      - apply Forall_app. split; [|apply Forall_cons; [unfold pub_ok; auto|apply Forall_nil]].
        apply andb_false_iff in C as [C|C].
        + apply negb_false_iff in C. apply Nat.eqb_eq in C. rewrite (NB C). apply Forall_nil.
        + apply orb_false_iff in C as [C C3]. apply orb_false_iff in C as [C C4].
          apply negb_false_iff in C. apply seg_eqb_eq in C.
          apply negb_false_iff in C4. apply eqb_prop in C4. rewrite C, C4. exact G1.
      - rewrite flat_map_app, zlen_app. cbn [flat_map]. rewrite app_nil_r, enc_pub_len.
        assert (SZ : zlen (flat_map enc_pub nb) = Z.of_nat size) by (unfold zlen; lia). rewrite SZ.
        destruct N1 as [_ N1].
        apply andb_false_iff in C as [C|C].
        + apply negb_false_iff in C. apply Nat.eqb_eq in C. destruct (p32 s); lia.
        + apply orb_false_iff in C as [_ C]. unfold MAX_PUB_LENGTH, MANGLE_BYTES in C. destruct (p32 s); lia. }
    { unfold pbudget in *. cbn [length] in F. destruct nb; cbn [app]; lia. }
    exists groups. split; [exact E|]. split; [rewrite CC, <- app_assoc; reflexivity|exact GG].
Qed.

Lemma enc_pub_read s r : pub_ok s -> rd_pub1 (p32 s) (enc_pub s ++ r) = Some ((p_name s, p_offset s), r).
Proof.
  intros ([_ N1] & _ & O). change (2 ^ 32) with 4294967296 in O. unfold rd_pub1, enc_pub. rewrite <- !app_assoc, rd_name_app by assumption.
  cbn [bindo]. unfold p32 in *. destruct (p_offset s >? 0xffff) eqn:E.
  - cbn [le_bytes app rd_ofs rd_dword bindo rd_index]. cbn. f_equal. f_equal. f_equal. lia.
  - cbn [le_bytes app rd_ofs rd_word bindo rd_index]. cbn. f_equal. f_equal. f_equal. lia.
Qed.
Lemma enc_pub_byte s : pub_ok s -> Forall is_byte (enc_pub s).
Proof.
  intros ([N0 N1] & _ & O). unfold enc_pub. cbn [app]. apply Forall_cons.
  { pose proof (wrap_range 8 (zlen (p_name s)) ltac:(lia)) as W. change (2 ^ 8) with 256 in W. exact W. }
  rewrite !Forall_app. split; [exact N0|]. split; [apply le_bytes_byte|apply Forall_cons; [unfold is_byte; lia|apply Forall_nil]].
Qed.

Definition segs_ok (segs : nat -> seginfo) : Prop :=
  forall g, 0 <= sg_segidx (segs g) < 2 ^ 15 /\ 0 <= sg_grpidx (segs g) < 2 ^ 15.

Lemma pub_base_ok segs g : segs_ok segs -> base_ok (pub_base segs g).
Proof.
  intros H. destruct g as [g|]; cbn [pub_base]; unfold base_ok, idx15, u16; cbn [grp_idx seg_idx frame].
  - destruct (H g). repeat split; try lia.
  - repeat split; try lia.
Qed.
Lemma grp_rec_ok segs x : segs_ok segs -> grp_ok x -> rec_ok (grp_rec segs x).
Proof.
  intros SG G. destruct x as [[cseg c32] g]. destruct G as [G1 G2]. unfold rec_ok. cbn [grp_rec r_is32 r_data r_cmd r_d].
  split; [destruct c32; [right|left]; reflexivity|]. split.
  - clear G2. induction G1 as [|s g (_ & _ & H) G1 IH]; cbn [flat_map]; [apply Forall_nil|].
    apply Forall_app. split; [apply enc_pub_byte; exact H|exact IH].
  - split; [left; reflexivity|apply pub_base_ok; exact SG].
Qed.
Lemma grp_table segs groups : Forall grp_ok groups ->
  public_table (map meaning (map (grp_rec segs) groups)) = Some (map (pub_entry segs) (concat (map snd groups))).
Proof.
  unfold public_table. induction 1 as [|x groups G _ IH]; cbn [map concat_opt concat]; [reflexivity|].
  rewrite IH. destruct x as [[cseg c32] g]. destruct G as [G1 _].
  cbn [meaning grp_rec r_d r_cmd r_is32 r_data CMD_PUBDEF snd].
  replace ((if c32 then 1 else 0) =? 1) with c32 by (destruct c32; reflexivity).
  rewrite Forall_forall in G1.
  rewrite (rd_many_concat (rd_pub1 c32) enc_pub (fun s => (p_name s, p_offset s))).
  - cbn [bindo]. rewrite map_app. do 2 f_equal. rewrite map_map. apply map_ext_in. intros s I.
    destruct (G1 s I) as (<- & _). reflexivity.
  - intros s r I. destruct (G1 s I) as (_ & <- & H). apply enc_pub_read. exact H.
  - intros s _. discriminate.
  - lia.
Qed.

(** ** COMDAT publics queued before any other public *)
Fixpoint firsts (segs : nat -> seginfo) (idx : nat -> bool) (q : list pubsym) : list pubsym :=
  match q with
  | [] => []
  | s :: q => match p_seg s with
              | Some g => if idx g then firsts segs idx q
                          else s :: firsts segs (fun h => if Nat.eqb h g then true else idx h) q
              | None => firsts segs idx q
              end
  end.

Lemma comdat_phase cs segs pls : forall cds fuel idx si buf,
  Forall (comdat segs) cds -> (forall s, In s cds -> name_ok (p_name s)) -> Forall (plain segs) pls -> Forall pub_ok pls ->
  0 <= si -> si + zlen cds < 2 ^ 16 -> (length cds + 2 * length pls + 1 <= fuel)%nat ->
  exists lns groups idx',
    pubdef_loop fuel cs segs (cds ++ pls) idx si buf 0 None false =
      Ok (map (fun s => mk_rec CMD_LNAMES (enc_name (text cs (p_name s)))) lns ++ map (grp_rec segs) groups, idx', si + zlen lns) /\
    (forall s, In s lns -> In s cds) /\
    concat (map snd groups) = pls /\ Forall grp_ok groups /\
    (forall g, idx g <> 0 -> idx' g = idx g) /\
    (forall s g, In s cds -> p_seg s = Some g -> idx g = 0 ->
       exists k s0, nth_error lns k = Some s0 /\ p_seg s0 = Some g /\ idx' g = si + 1 + Z.of_nat k) /\
    (forall g, (forall s, In s cds -> p_seg s <> Some g) -> idx' g = idx g).
Proof.
  induction cds as [|s cds IH]; intros fuel idx si buf CD NM PL OK S1 S2 F.
  - destruct (pub_groups cs segs fuel pls idx si buf 0%nat None false []) as (groups & E & CC & GG);
      [assumption|assumption|reflexivity|reflexivity|cbn; split; [apply Forall_nil|discriminate]
      |unfold pbudget; cbn [length] in F; destruct pls; cbn [length] in *; lia|].
    exists [], groups, idx. cbn [map app]. rewrite (@zlen_nil pubsym), Z.add_0_r.
    split; [exact E|]. split; [intros s []|]. split; [exact CC|]. split; [exact GG|].
    split; [reflexivity|]. split; [intros s g []|reflexivity].
  - rewrite zlen_cons in S2. cbn [length] in F. destruct fuel as [|fuel]; [lia|].
    apply Forall_cons_iff in CD as [(g & SG & CG) CD].
    assert (NM' : forall s, In s cds -> name_ok (p_name s)) by (intros; apply NM; right; assumption).
    cbn [app pubdef_loop]. cbv zeta. rewrite SG, CG. destruct (idx g =? 0) eqn:I0.
    + fold (text cs (p_name s)). cbn [Nat.eqb].
      change ([wrap 8 (zlen (text cs (p_name s)))] ++ text cs (p_name s)) with (enc_name (text cs (p_name s))).
      pose proof (zlen_nonneg cds) as ZC.
      set (idx1 := fun h => if Nat.eqb h g then wrap 16 (si + 1) else idx h).
      assert (I1 : idx1 g = si + 1). { unfold idx1. rewrite Nat.eqb_refl. apply wrap_small. lia. }
      destruct (IH fuel idx1 (si + 1) (write_at buf 0 (enc_name (text cs (p_name s)) ++ [0])) CD NM' PL OK ltac:(lia) ltac:(lia) ltac:(lia))
        as (lns & groups & idx' & E & A & B & C & D1 & D2 & D3).
      match goal with |- context [bindr ?X _] =>
        change X with (pubdef_loop fuel cs segs (cds ++ pls) idx1 (si + 1) (write_at buf 0 (enc_name (text cs (p_name s)) ++ [0])) 0 None false) end.
      rewrite E. cbn [bindr]. exists (s :: lns), groups, idx'. cbn [map app]. rewrite zlen_cons, Z.add_assoc.
      split; [reflexivity|]. split; [intros x [<-|X]; [left; reflexivity|right; auto]|].
      split; [exact B|]. split; [exact C|]. split; [|split].
      * intros h Hn. rewrite D1; unfold idx1; destruct (Nat.eqb_spec h g); subst; try lia; auto.
      * intros x h X XS XI. destruct (Nat.eqb_spec h g) as [->|NE].
        { exists 0%nat, s. split; [reflexivity|]. split; [exact SG|]. rewrite D1 by lia. lia. }
        { destruct X as [<-|X]; [congruence|].
          destruct (D2 x h X XS) as (k & s0 & K1 & K2 & K3).
          { unfold idx1. destruct (Nat.eqb_spec h g); [contradiction|exact XI]. }
          exists (S k), s0. cbn [nth_error]. split; [exact K1|]. split; [exact K2|]. lia. }
      * intros h Hn. rewrite D3 by (intros x X; apply Hn; right; exact X).
        unfold idx1. destruct (Nat.eqb_spec h g) as [->|NE]; [|reflexivity].
        exfalso. apply (Hn s (or_introl eq_refl)). exact SG.
    + destruct (IH fuel idx si buf CD NM' PL OK ltac:(lia) ltac:(lia) ltac:(lia)) as (lns & groups & idx' & E & A & B & C & D1 & D2 & D3).
      exists lns, groups, idx'. split; [exact E|]. split; [intros x X; right; auto|].
      split; [exact B|]. split; [exact C|]. split; [exact D1|]. split.
      * intros x h [<-|X] XS XI; [|eauto]. assert (h = g) by congruence. subst h. lia.
      * intros h Hn. apply D3. intros x X. apply Hn. right. exact X.
Qed.

Theorem pubdef_correct cs segs cds pls idx si buf :
  segs_ok segs -> Forall (comdat segs) cds -> (forall s, In s cds -> name_ok (p_name s)) ->
  Forall (plain segs) pls -> Forall pub_ok pls -> 0 <= si -> si + zlen cds < 2 ^ 16 ->
  exists recs idx' si' bytes vs lns,
    omf_write_pubdef cs segs (cds ++ pls) idx si buf = Ok (recs, idx', si') /\
    omf_write_records recs = Ok bytes /\ read_views bytes = Some vs /\
    public_table vs = Some (map (pub_entry segs) pls) /\
    Forall (fun r => zlen (r_data r) <= 1020) recs /\
    lname_table vs = Some lns /\ si' = si + zlen lns /\
    (forall g, idx g <> 0 -> idx' g = idx g) /\
    (forall g, (forall s, In s cds -> p_seg s <> Some g) -> idx' g = idx g) /\
    forall s g, In s cds -> p_seg s = Some g -> idx g = 0 ->
      exists s0, In s0 cds /\ p_seg s0 = Some g /\ si < idx' g /\
        nth_error lns (Z.to_nat (idx' g - si - 1)) = Some (text cs (p_name s0)).
Proof.
  intros SG CD NM PL OK S1 S2. unfold omf_write_pubdef.
  destruct (comdat_phase cs segs pls cds (2 * length (cds ++ pls) + 2) idx si buf CD NM PL OK S1 S2)
    as (lns & groups & idx' & E & A & B & C & D1 & D2 & D3); [rewrite app_length; lia|].
  assert (NL : forall s, In s lns -> name_ok (text cs (p_name s))) by (intros s I; apply text_ok; auto).
  set (recs := map (fun s => mk_rec CMD_LNAMES (enc_name (text cs (p_name s)))) lns ++ map (grp_rec segs) groups) in *.
  assert (RO : Forall rec_ok recs).
  { apply Forall_app. split.
    - rewrite Forall_map. apply Forall_forall. intros s I. pose proof (lnames_rec_ok [text cs (p_name s)]) as H.
      cbn [flat_map] in H. rewrite app_nil_r in H. apply H. apply Forall_cons; [auto|apply Forall_nil].
    - rewrite Forall_map. eapply Forall_impl; [|exact C]. intros x. apply grp_rec_ok. exact SG. }
  assert (RL : Forall (fun r => zlen (r_data r) <= 1020) recs).
  { apply Forall_app. split.
    - rewrite Forall_map. apply Forall_forall. intros s I. cbn [mk_rec r_data]. unfold enc_name. cbn [app]. rewrite zlen_cons.
      destruct (NL s I). lia.
    - rewrite Forall_map. eapply Forall_impl; [|exact C]. intros [[? ?] ?] [_ G]. exact G. }
  destruct (records_readable recs) as (bytes & W & R); [exact RO|eapply Forall_impl; [|exact RL]; cbn beta; intros; lia|].
  exists recs, idx', (si + zlen lns), bytes, (map meaning recs), (map (fun s => text cs (p_name s)) lns).
  split; [exact E|]. split; [exact W|]. split; [exact R|]. split; [|split; [exact RL|split; [|split; [|split; [exact D1|split; [exact D3|]]]]]].
  - unfold recs, public_table. rewrite map_app.
    rewrite (concat_opt_app _ _ _ [] (map (pub_entry segs) pls)); [reflexivity| |].
    + apply concat_opt_none. rewrite !Forall_map. apply Forall_forall. intros s _. reflexivity.
    + pose proof (grp_table segs groups C) as G. rewrite B in G. exact G.
  - unfold recs, lname_table. rewrite map_app.
    rewrite (concat_opt_app _ _ _ (map (fun s => text cs (p_name s)) lns) []).
    + rewrite app_nil_r. reflexivity.
    + rewrite map_map. clear - NL. induction lns as [|s lns IH]; cbn [map concat_opt]; [reflexivity|].
      rewrite IH by (intros; apply NL; right; assumption).
      cbn [meaning mk_rec r_d r_cmd r_is32 r_data CMD_LNAMES].
      pose proof (rd_lnames_enc [text cs (p_name s)]) as H. cbn [flat_map map] in H. rewrite app_nil_r in H.
      rewrite H; [reflexivity|]. apply Forall_cons; [apply NL; left; reflexivity|apply Forall_nil].
    + apply concat_opt_none. rewrite !Forall_map. apply Forall_forall. intros [[? ?] ?] _. reflexivity.
  - unfold zlen. rewrite map_length. reflexivity.
  - intros s g I SGG I0. destruct (D2 s g I SGG I0) as (k & s0 & K1 & K2 & K3).
    exists s0. split; [apply A; eapply nth_error_In; eassumption|]. split; [exact K2|]. rewrite K3. split; [lia|].
    replace (Z.to_nat (si + 1 + Z.of_nat k - si - 1)) with k by lia. rewrite (map_nth_error _ _ _ K1). reflexivity.
Qed.
