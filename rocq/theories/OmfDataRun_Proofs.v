From Coq Require Import Permutation.
From Verif Require Import Base OmfRec_Model OmfRec_Spec OmfRec_Proofs Data_Proofs OmfFix_Model OmfFix_Spec OmfFix_Proofs OmfData_Model OmfData_Spec OmfData_Proofs.

Lemma set_nth_twice : forall A (l : list A) n x y, set_nth n x (set_nth n y l) = set_nth n x l.
Proof. induction l as [|z l IH]; intros [|n] x y; cbn; auto. f_equal. apply IH. Qed.

Lemma Forall_part : forall A (P : A -> Prop) l n, Forall P l -> Forall P (firstn n l) /\ Forall P (skipn n l).
Proof. intros A P l n H. rewrite <- (firstn_skipn n l) in H. apply Forall_app in H. exact H. Qed.

Definition buffered (s : state) : list Z := firstn (Z.to_nat (current_loc (CurrSeg s) - start_loc (CurrSeg s))) (codebuf s).
Definition seg_inv (g : seg) (c : counter) : Prop :=
  sg_idx g = c_idx c /\ current_loc g = loc c /\ max_offset g = high c /\ 0 <= start_loc g <= loc c /\ loc c <= high c < 4294967296 /\ idx15 (c_idx c).
Record Inv (s : state) (w : world) : Prop := {
  i_len : length (segs s) = length (counters w);
  i_cur : cur s = here w;
  i_here : (here w < length (counters w))%nat;
  i_seg : forall k, (k < length (counters w))%nat -> seg_inv (nth k (segs s) no_seg) (nth k (counters w) none);
  i_other : forall k, (k < length (counters w))%nat -> k <> here w -> start_loc (nth k (segs s) no_seg) = current_loc (nth k (segs s) no_seg) /\ fixups (nth k (segs s) no_seg) = [];
  i_fix : Forall (pending (start_loc (CurrSeg s)) (current_loc (CurrSeg s))) (fixups (CurrSeg s));
  i_buf : length (codebuf s) = 1024%nat;
  i_bytes : Forall is_byte (codebuf s);
  i_size : current_loc (CurrSeg s) - start_loc (CurrSeg s) <= 1024;
  i_recs : Forall (fun r => rec_ok r /\ zlen (r_data r) <= 1024) (recs s);
  i_load : exists L, load (map meaning (recs s)) (0, 0) no_load = Some L /\
    same (put_bytes (l_mem L) (sg_idx (CurrSeg s)) (start_loc (CurrSeg s)) (buffered s)) (image w) /\
    Permutation (l_relocs L ++ flat_map asked_of (map (pair (sg_idx (CurrSeg s))) (fixups (CurrSeg s)))) (flat_map asked_of (relocs w))
}.
Lemma curr_inv : forall s w, Inv s w -> seg_inv (CurrSeg s) (at_ w).
Proof. intros s w H. unfold CurrSeg, at_. rewrite (i_cur _ _ H). apply (i_seg _ _ H). apply (i_here _ _ H). Qed.
Lemma curr_set : forall s w g cb rs, Inv s w -> CurrSeg {| segs := set_nth (cur s) g (segs s); cur := cur s; codebuf := cb; recs := rs |} = g.
Proof.
  intros s w g cb rs H. unfold CurrSeg. cbn [segs cur]. rewrite nth_set_nth by (rewrite (i_cur _ _ H), (i_len _ _ H); apply (i_here _ _ H)).
  rewrite Nat.eqb_refl. reflexivity.
Qed.
Lemma nth_set : forall s w g k, Inv s w -> nth k (set_nth (cur s) g (segs s)) no_seg = if Nat.eqb k (here w) then g else nth k (segs s) no_seg.
Proof.
  intros s w g k H. rewrite nth_set_nth by (rewrite (i_cur _ _ H), (i_len _ _ H); apply (i_here _ _ H)). rewrite (i_cur _ _ H). reflexivity.
Qed.

Lemma permute : forall A B (f : A -> list B) p l, Permutation (flat_map f (filter (fun x => Bool.eqb (p x) false) l) ++ flat_map f (filter (fun x => Bool.eqb (p x) true) l)) (flat_map f l).
Proof.
  intros A B f p. induction l as [|x l IH]; cbn [filter flat_map]; [apply Permutation_refl|].
  destruct (p x); cbn [Bool.eqb flat_map].
  - rewrite (app_assoc (flat_map f (filter _ l)) (f x)). 
    eapply Permutation_trans; [apply Permutation_app_tail; apply Permutation_app_comm|]. rewrite <- app_assoc. apply Permutation_app_head. exact IH.
  - rewrite <- app_assoc. apply Permutation_app_head. exact IH.
Qed.
Lemma flat_map_pair : forall s l, flat_map asked_of (map (pair s) l) = flat_map (fun fx => asked_of (s, fx)) l.
Proof. intros s l. induction l as [|x l IH]; cbn; [reflexivity|]. now rewrite IH. Qed.

Lemma flush_inv : forall s w, Inv s w -> exists s', omf_write_ledata s = Ok s' /\ Inv s' w /\ start_loc (CurrSeg s') = current_loc (CurrSeg s') /\ fixups (CurrSeg s') = [].
Proof.
  intros s w H. pose proof (curr_inv s w H) as (G1 & G2 & G3 & G4 & G5 & G6). pose proof (i_size _ _ H) as SZ.
  set (g := CurrSeg s) in *. unfold omf_write_ledata. fold g.
  rewrite (swrap_small 32) by (change (2 ^ (32 - 1)) with 2147483648; lia).
  destruct (i_load _ _ H) as (L & L1 & L2 & L3). fold g in L2, L3.
  destruct (Z.gtb_spec (current_loc g - start_loc g) 0) as [E|E].
  - replace (current_loc g - start_loc g >? CODEBUF_SIZE) with false by (symmetry; unfold CODEBUF_SIZE; lia).
    cbn [set_seg segs cur codebuf recs]. eexists. split; [reflexivity|].
    match goal with |- Inv ?x _ /\ _ => set (s' := x) end.
    set (g' := {| sg_idx := sg_idx g; start_loc := current_loc g; current_loc := current_loc g; max_offset := max_offset g; fixups := [] |}) in *.
    assert (CurrSeg s' = g') as EC by (unfold s'; apply curr_set with (w := w); exact H). rewrite EC.
    split; [|split; reflexivity].
    assert (Forall (fun fx => sound fx /\ 0 <= f_locofs fx - start_loc g < 1024) (fixups g)) as FF.
    { pose proof (i_fix _ _ H) as FP. fold g in FP. eapply Forall_impl; [|exact FP]. intros fx [P1 P2]. split; [exact P1|]. lia. }
    set (d := firstn (Z.to_nat (current_loc g - start_loc g)) (codebuf s)) in *.
    set (L' := {| l_mem := put_bytes (l_mem L) (sg_idx g) (start_loc g) d; l_relocs := l_relocs L |}).
    destruct (loop_load (sg_idx g) false (start_loc g) (fixups g) [] [] L' FF (P_nil _) ltac:(rewrite zlen_nil; lia) ltac:(apply Forall_nil)) as [A1 A2].
    match type of A1 with _ = Some ?x => set (L1' := x) in * end.
    destruct (loop_load (sg_idx g) true (start_loc g) (fixups g) [] [] L1' FF (P_nil _) ltac:(rewrite zlen_nil; lia) ltac:(apply Forall_nil)) as [B1 B2].
    match type of B1 with _ = Some ?x => set (L2' := x) in * end. cbv zeta in A1, A2, B1, B2.
    constructor; rewrite ?EC; try (unfold s'; cbn [segs cur codebuf recs]).
    + rewrite set_nth_length. apply (i_len _ _ H).
    + apply (i_cur _ _ H).
    + apply (i_here _ _ H).
    + intros k Hk. rewrite (nth_set s w _ k H). destruct (Nat.eqb_spec k (here w)) as [->|Ek]; [|apply (i_seg _ _ H k Hk)].
      fold (at_ w). unfold seg_inv, g'. cbn [sg_idx current_loc max_offset start_loc]. do 3 (split; [assumption|]); split; [lia|]; split; [lia|assumption].
    + intros k Hk Nk. rewrite (nth_set s w _ k H). destruct (Nat.eqb_spec k (here w)) as [->|Ek]; [contradiction|]. apply (i_other _ _ H k Hk Nk).
    + apply Forall_nil.
    + apply (i_buf _ _ H).
    + apply (i_bytes _ _ H).
    + unfold g'. cbn [current_loc start_loc]. lia.
    + apply Forall_app. split; [apply (i_recs _ _ H)|]. apply Forall_cons; [|apply Forall_app; split; assumption].
      assert (Forall is_byte d) as DB by (apply Forall_part; apply (i_bytes _ _ H)).
      split.
      * unfold rec_ok. cbn [r_is32 r_data r_d r_cmd]. split; [destruct (start_loc g >? 65535); [right|left]; reflexivity|]. split; [exact DB|].
        rewrite G1. unfold idx15 in *. unfold ofs_ok, CMD_LEDATA. cbn [In]. split; [auto|]. split; [exact G6|].
        destruct (Z.gtb_spec (start_loc g) 65535); cbn; lia.
      * cbn [r_data]. unfold zlen, d. rewrite firstn_length. pose proof (i_buf _ _ H). lia.
    + exists L2'. split.
      * rewrite map_app. cbn [map meaning r_d r_cmd r_is32 r_data]. rewrite (load_app _ _ _ L) by exact L1. unfold CMD_LEDATA. cbn [load].
        rewrite map_app. fold L'. unfold omf_write_fixupp.
        assert (forall x y l1 last l2 l0, load (map meaning (fixup_loop x y (fixups g) [])) last l0 = Some l1 ->
           load (map meaning (fixup_loop x y (fixups g) []) ++ l2) last l0 = load l2 last l1) as LA.
        { intros x y l1 last l2 l0. generalize (fixups g) as fl. intros fl. generalize (@nil Z) as dd. revert l0.
          induction fl as [|fx fl IH]; intros l0 dd Hl; cbn [fixup_loop] in *.
          - destruct (zlen dd =? 0); cbn [map app load] in *; [injection Hl as ->; reflexivity|].
            change (meaning (fixupp x dd)) with (V_plain 0x9c ((if x then 1 else 0) =? 1) dd) in *. cbn [load] in *.
            destruct (rd_fixupp _ dd); [|discriminate]. injection Hl as <-. reflexivity.
          - destruct (negb _); [apply IH; exact Hl|]. destruct (zlen dd >? 1020 - FIX_GEN_MAX); [|apply IH; exact Hl].
            cbn [map app] in *. change (meaning (fixupp x dd)) with (V_plain 0x9c ((if x then 1 else 0) =? 1) dd) in *. cbn [load] in *.
            destruct (rd_fixupp _ dd); [|discriminate]. apply IH. exact Hl. }
        rewrite (LA false (start_loc g) L1' (sg_idx g, start_loc g)) by exact A1. exact B1.
      * unfold L2', L1', L'. cbn [l_mem l_relocs]. split.
        -- match goal with |- same (put_bytes _ _ _ ?b) _ => assert (b = []) as -> end; [|exact L2].
           change (buffered s' = []). unfold buffered. rewrite EC. unfold g'. cbn [current_loc start_loc]. rewrite Z.sub_diag. reflexivity.
        -- unfold g'. cbn [fixups map flat_map rel_list app]. rewrite app_nil_r. eapply Permutation_trans; [|exact L3].
           rewrite <- app_assoc. apply Permutation_app_head. rewrite !flat_map_pair.
           apply (permute _ _ (fun fx => asked_of (sg_idx g, fx)) wide_fixup).
  - assert (current_loc g = start_loc g) as EE by lia.
    assert (fixups g = []) as EF.
    { pose proof (i_fix _ _ H) as F. fold g in F. destruct (fixups g) as [|fx l]; [reflexivity|]. inversion F as [|? ? [_ P] _]; subst. lia. }
    assert (set_seg s {| sg_idx := sg_idx g; start_loc := current_loc g; current_loc := current_loc g; max_offset := max_offset g; fixups := fixups g |} = s) as ES.
    { replace {| sg_idx := sg_idx g; start_loc := current_loc g; current_loc := current_loc g; max_offset := max_offset g; fixups := fixups g |} with g
        by (destruct g; cbn in *; congruence).
      unfold set_seg. destruct s as [sgs c cb rs]. cbn [segs cur codebuf recs] in *. f_equal.
      unfold g, CurrSeg. cbn [segs cur]. clear. revert c. induction sgs as [|x sgs IH]; intros [|c]; cbn; auto. f_equal. apply IH. }
    rewrite ES. exists s. split; [reflexivity|]. split; [exact H|]. fold g. auto.
Qed.

(** * the steps *)
Lemma counters_move : forall w v, length (counters (move w v)) = length (counters w).
Proof. intros w v. cbn [counters move]. apply set_nth_length. Qed.
Lemma nth_move : forall w v k, (here w < length (counters w))%nat ->
  nth k (counters (move w v)) none = if Nat.eqb k (here w) then {| c_idx := c_idx (at_ w); loc := v; high := Z.max (high (at_ w)) v |} else nth k (counters w) none.
Proof. intros w v k H. cbn [counters move]. apply nth_set_nth. exact H. Qed.
Lemma fits_nth : forall w k, fits w -> high (nth k (counters w) none) < 4294967296.
Proof.
  intros w k H. destruct (Nat.lt_ge_cases k (length (counters w))) as [L|L].
  - apply (proj1 (Forall_forall _ _) H). apply nth_In. exact L.
  - rewrite nth_overflow by exact L. cbn. lia.
Qed.
Lemma firstn_poke : forall A n (c bs : list A), (n + length bs <= length c)%nat ->
  firstn (n + length bs) (firstn n c ++ bs ++ skipn (n + length bs) c) = firstn n c ++ bs.
Proof.
  intros A n c bs H. rewrite app_assoc. rewrite firstn_app. rewrite firstn_all2 by (rewrite app_length, firstn_length; lia).
  replace (n + length bs - length (firstn n c ++ bs))%nat with 0%nat by (rewrite app_length, firstn_length; lia). cbn. apply app_nil_r.
Qed.
(** new bytes and fixups in the buffer *)
Lemma emit_inv : forall s w bs nf, Inv s w -> Forall is_byte bs -> fits (emit bs w) ->
  Forall (fun fx => sound fx /\ f_locofs fx = loc (at_ w)) nf -> (nf <> [] -> bs <> []) ->
  current_loc (CurrSeg s) - start_loc (CurrSeg s) + zlen bs <= 1024 ->
  let g := CurrSeg s in let i := Z.to_nat (current_loc g - start_loc g) in
  Inv {| segs := set_nth (cur s) {| sg_idx := sg_idx g; start_loc := start_loc g; current_loc := current_loc g + zlen bs;
                                    max_offset := Z.max (max_offset g) (current_loc g + zlen bs); fixups := fixups g ++ nf |} (segs s); cur := cur s;
         codebuf := firstn i (codebuf s) ++ bs ++ skipn (i + length bs) (codebuf s); recs := recs s |}
      {| counters := counters (emit bs w); here := here w; image := image (emit bs w); relocs := relocs w ++ map (pair (c_idx (at_ w))) nf |}.
Proof.
  intros s w bs nf H B F FN NB SZ g i. pose proof (curr_inv s w H) as (G1 & G2 & G3 & G4 & G5 & G6). fold g in G1, G2, G3, G4, SZ.
  pose proof (zlen_nonneg bs) as ZB.
  match goal with |- Inv ?x _ => set (s' := x) end.
  set (g' := {| sg_idx := sg_idx g; start_loc := start_loc g; current_loc := current_loc g + zlen bs; max_offset := Z.max (max_offset g) (current_loc g + zlen bs); fixups := fixups g ++ nf |}) in *.
  assert (CurrSeg s' = g') as EC by (unfold s'; apply curr_set with (w := w); exact H).
  assert (length (codebuf s) = 1024%nat) as LB by apply (i_buf _ _ H).
  assert ((i + length bs <= 1024)%nat) as LI by (unfold i; unfold zlen in SZ; lia).
  assert (high (nth (here w) (counters (emit bs w)) none) < 4294967296) as HF by (apply fits_nth; exact F).
  change (counters (emit bs w)) with (counters (move w (loc (at_ w) + zlen bs))) in *. rewrite nth_move, Nat.eqb_refl in HF by apply (i_here _ _ H). cbn [high] in HF.
  constructor; rewrite ?EC; try (unfold s'; cbn [segs cur codebuf recs counters here image relocs]); rewrite ?counters_move, ?set_nth_length.
  - apply (i_len _ _ H).
  - apply (i_cur _ _ H).
  - apply (i_here _ _ H).
  - intros k Hk. rewrite (nth_set s w _ k H), nth_move by apply (i_here _ _ H). destruct (Nat.eqb_spec k (here w)) as [->|Ek]; [|apply (i_seg _ _ H k Hk)].
    unfold seg_inv, g'. cbn [sg_idx current_loc max_offset start_loc c_idx loc high]. split; [assumption|]. split; [lia|]. split; [lia|].
    split; [lia|]. split; [lia|assumption].
  - intros k Hk Nk. rewrite (nth_set s w _ k H). destruct (Nat.eqb_spec k (here w)) as [->|Ek]; [contradiction|]. apply (i_other _ _ H k Hk Nk).
  - unfold g'. cbn [start_loc current_loc fixups]. apply Forall_app. split.
    + eapply Forall_impl; [|apply (i_fix _ _ H)]. intros fx [P1 P2]. fold g in P2. split; [exact P1|]. lia.
    + destruct nf as [|fx0 nf0]; [apply Forall_nil|]. assert (0 < zlen bs) as PB.
      { destruct bs as [|b bs0]; [exfalso; apply NB; [discriminate|reflexivity]|]. rewrite zlen_cons. pose proof (zlen_nonneg bs0). lia. }
      eapply Forall_impl; [|exact FN]. intros fx [P1 P2]. split; [exact P1|]. lia.
  - rewrite !app_length, firstn_length, skipn_length. lia.
  - apply Forall_app. split; [apply Forall_part; apply (i_bytes _ _ H)|]. apply Forall_app. split; [exact B|]. apply Forall_part; apply (i_bytes _ _ H).
  - unfold g'. cbn [start_loc current_loc]. lia.
  - apply (i_recs _ _ H).
  - destruct (i_load _ _ H) as (L & L1 & L2 & L3). fold g in L2, L3. exists L. split; [exact L1|]. split.
    + change (image (emit bs w)) with (put_bytes (image w) (c_idx (at_ w)) (loc (at_ w)) bs).
      match goal with |- same (put_bytes _ _ _ ?b) _ => assert (b = buffered s ++ bs) as -> end.
      { change (buffered s' = buffered s ++ bs). unfold buffered. rewrite EC. unfold g'. cbn [current_loc start_loc]. fold g. fold i.
        replace (Z.to_nat (current_loc g + zlen bs - start_loc g)) with (i + length bs)%nat by (unfold i, zlen; lia).
        unfold s'. cbn [codebuf]. apply firstn_poke. rewrite LB. exact LI. }
      rewrite put_bytes_app. unfold g'. cbn [sg_idx start_loc].
      replace (start_loc g + zlen (buffered s)) with (loc (at_ w))
        by (unfold buffered, zlen; fold g; rewrite firstn_length, LB; lia).
      rewrite <- G1. apply put_bytes_same. exact L2.
    + unfold g'. cbn [sg_idx fixups]. rewrite map_app, !flat_map_app, app_assoc. rewrite <- G1. apply Permutation_app_tail. exact L3.
Qed.
(** the location counter moves; the buffer is empty *)
Lemma move_inv : forall s w v, Inv s w -> start_loc (CurrSeg s) = current_loc (CurrSeg s) -> fixups (CurrSeg s) = [] -> 0 <= v -> fits (move w v) ->
  let g := CurrSeg s in
  Inv (set_seg s {| sg_idx := sg_idx g; start_loc := v; current_loc := v; max_offset := if v >? max_offset g then v else max_offset g; fixups := fixups g |}) (move w v).
Proof.
  intros s w v H E1 E2 V F g. pose proof (curr_inv s w H) as (G1 & G2 & G3 & G4 & G5 & G6). fold g in G1, G2, G3, G4, E1, E2.
  unfold set_seg. match goal with |- Inv ?x _ => set (s' := x) end.
  match goal with s' := {| segs := set_nth _ ?x _ |} |- _ => set (g' := x) in * end.
  assert (CurrSeg s' = g') as EC by (unfold s'; apply curr_set with (w := w); exact H).
  assert (high (nth (here w) (counters (move w v)) none) < 4294967296) as HF by (apply fits_nth; exact F).
  rewrite nth_move, Nat.eqb_refl in HF by apply (i_here _ _ H). cbn [high] in HF.
  constructor; rewrite ?EC; try (unfold s'; cbn [segs cur codebuf recs]); rewrite ?counters_move, ?set_nth_length; try (cbn [here move image relocs]).
  - apply (i_len _ _ H).
  - apply (i_cur _ _ H).
  - apply (i_here _ _ H).
  - intros k Hk. rewrite (nth_set s w _ k H), nth_move by apply (i_here _ _ H). destruct (Nat.eqb_spec k (here w)) as [->|Ek]; [|apply (i_seg _ _ H k Hk)].
    unfold seg_inv, g'. cbn [sg_idx current_loc max_offset start_loc c_idx loc high]. split; [assumption|]. split; [lia|].
    split; [destruct (Z.gtb_spec v (max_offset g)); lia|]. split; [lia|]. split; [lia|assumption].
  - intros k Hk Nk. rewrite (nth_set s w _ k H). destruct (Nat.eqb_spec k (here w)) as [->|Ek]; [contradiction|]. apply (i_other _ _ H k Hk Nk).
  - unfold g'. cbn [fixups]. rewrite E2. apply Forall_nil.
  - apply (i_buf _ _ H).
  - apply (i_bytes _ _ H).
  - unfold g'. cbn [start_loc current_loc]. lia.
  - apply (i_recs _ _ H).
  - destruct (i_load _ _ H) as (L & L1 & L2 & L3). fold g in L2, L3. exists L. split; [exact L1|]. split.
    + match goal with |- same (put_bytes _ _ _ ?b) _ => assert (b = []) as -> end.
      { change (buffered s' = []). unfold buffered. rewrite EC. unfold g'. cbn [current_loc start_loc]. rewrite Z.sub_diag. reflexivity. }
      unfold buffered in L2. fold g in L2. rewrite E1, Z.sub_diag in L2. exact L2.
    + unfold g'. cbn [sg_idx fixups]. exact L3.
Qed.
Lemma switch_inv : forall s w n, Inv s w -> start_loc (CurrSeg s) = current_loc (CurrSeg s) -> fixups (CurrSeg s) = [] -> (n < length (counters w))%nat ->
  Inv {| segs := segs s; cur := n; codebuf := codebuf s; recs := recs s |} {| counters := counters w; here := n; image := image w; relocs := relocs w |}.
Proof.
  intros s w n H E1 E2 Hn.
  assert (forall k, (k < length (counters w))%nat -> start_loc (nth k (segs s) no_seg) = current_loc (nth k (segs s) no_seg) /\ fixups (nth k (segs s) no_seg) = []) as A.
  { intros k Hk. destruct (Nat.eq_dec k (here w)) as [->|Nk]; [|apply (i_other _ _ H); assumption].
    unfold CurrSeg in E1, E2. rewrite (i_cur _ _ H) in E1, E2. auto. }
  destruct (A n Hn) as [A1 A2].
  constructor; unfold CurrSeg, buffered; cbn [segs cur codebuf recs counters here image relocs].
  - apply (i_len _ _ H).
  - reflexivity.
  - exact Hn.
  - apply (i_seg _ _ H).
  - intros k Hk _. apply A. exact Hk.
  - rewrite A2. apply Forall_nil.
  - apply (i_buf _ _ H).
  - apply (i_bytes _ _ H).
  - lia.
  - apply (i_recs _ _ H).
  - destruct (i_load _ _ H) as (L & L1 & L2 & L3). exists L. split; [exact L1|]. split.
    + unfold CurrSeg. cbn [segs cur]. rewrite A1, Z.sub_diag. cbn. unfold buffered in L2. rewrite E1, Z.sub_diag in L2. exact L2.
    + rewrite A2. rewrite E2 in L3. exact L3.
Qed.
Lemma index_inv : forall s w, Inv s w -> index s = current_loc (CurrSeg s) - start_loc (CurrSeg s) /\ 0 <= index s <= 1024.
Proof.
  intros s w H. pose proof (curr_inv s w H) as (G1 & G2 & G3 & G4 & G5 & G6). pose proof (i_size _ _ H). unfold index.
  rewrite wrap_small by (change (2 ^ 32) with 4294967296; lia). lia.
Qed.
Lemma fits_emit : forall s w bs, Inv s w -> fits (emit bs w) -> loc (at_ w) + zlen bs < 4294967296.
Proof.
  intros s w bs H F. pose proof (fits_nth _ (here w) F) as HF. change (counters (emit bs w)) with (counters (move w (loc (at_ w) + zlen bs))) in HF.
  rewrite nth_move, Nat.eqb_refl in HF by apply (i_here _ _ H). cbn [high] in HF. lia.
Qed.
(** poke and advance *)
Lemma put_step : forall s w bs, Inv s w -> Forall is_byte bs -> fits (emit bs w) ->
  forall r, bindr (poke (index s) bs s) (fun s => Ok (advance (zlen bs) s)) = Ok r -> Inv r (emit bs w).
Proof.
  intros s w bs H B F r. destruct (index_inv s w H) as [EI RI]. pose proof (fits_emit s w bs H F) as FB. pose proof (zlen_nonneg bs) as ZB.
  pose proof (curr_inv s w H) as (G1 & G2 & G3 & G4 & G5 & G6).
  unfold poke. destruct (Z.leb_spec (index s + zlen bs) CODEBUF_SIZE) as [E|E]; cbn [bindr]; [|discriminate].
  intros R. injection R as <-. unfold CODEBUF_SIZE in E.
  pose proof (emit_inv s w bs [] H B F ltac:(apply Forall_nil) ltac:(congruence) ltac:(lia)) as EM. cbv zeta in EM. cbn [map] in EM. rewrite !app_nil_r in EM.
  unfold advance, set_seg. cbn [segs cur codebuf recs].
  change (CurrSeg {| segs := segs s; cur := cur s; codebuf := _; recs := recs s |}) with (CurrSeg s).
  rewrite wrap_small by (change (2 ^ 32) with 4294967296; lia).
  replace (if current_loc (CurrSeg s) + zlen bs >? max_offset (CurrSeg s) then current_loc (CurrSeg s) + zlen bs else max_offset (CurrSeg s))
    with (Z.max (max_offset (CurrSeg s)) (current_loc (CurrSeg s) + zlen bs))
    by (destruct (Z.gtb_spec (current_loc (CurrSeg s) + zlen bs) (max_offset (CurrSeg s))); lia).
  rewrite EI. replace (Z.to_nat (current_loc (CurrSeg s) - start_loc (CurrSeg s) + zlen bs)) with (Z.to_nat (current_loc (CurrSeg s) - start_loc (CurrSeg s)) + length bs)%nat
    by (unfold zlen; lia).
  unfold emit in *. cbn in EM |- *. destruct w. exact EM.
Qed.
Lemma le_bytes_val : forall bs, Forall is_byte bs -> le_bytes (length bs) (le_val bs) = bs.
Proof.
  induction bs as [|b bs IH]; intros F; [reflexivity|]. inversion F as [|? ? F1 F2]; subst. cbn [length le_bytes le_val]. unfold is_byte in F1.
  replace ((b + 256 * le_val bs) mod 256) with b by (rewrite (Z.mul_comm 256), Z_mod_plus_full, Z.mod_small by lia; reflexivity).
  replace ((b + 256 * le_val bs) / 256) with (le_val bs) by (rewrite (Z.mul_comm 256), Z_div_plus_full, Z.div_small by lia; reflexivity).
  rewrite IH by exact F2. reflexivity.
Qed.
Lemma with_target_eq : forall bs x, Forall is_byte bs ->
  firstn (length bs) (le_bytes 4 (le_val (firstn 4 bs) + x)) ++ skipn 4 bs =
  le_bytes (length bs) (le_val bs - le_val bs mod 2 ^ 32 + (le_val bs + x) mod 2 ^ 32).
Proof.
  intros bs x F. change (2 ^ 32) with 4294967296. destruct (Nat.le_gt_cases (length bs) 4) as [L|L].
  - rewrite firstn_all2 with (l := bs) by exact L. rewrite skipn_all2 by exact L. rewrite app_nil_r.
    rewrite firstn_le_bytes by exact L. 
    pose proof (le_val_range bs F) as RV.
    assert (2 ^ (8 * Z.of_nat (length bs)) <= 4294967296) as LE
      by (change 4294967296 with (2 ^ 32); apply Z.pow_le_mono_r; lia).
    rewrite (Z.mod_small (le_val bs)) by (unfold zlen in RV; lia). replace (le_val bs - le_val bs + (le_val bs + x) mod 4294967296) with ((le_val bs + x) mod 4294967296) by lia.
    apply le_bytes_cong. apply Znumtheory.Zmod_div_mod; [apply pow2_pos; lia|lia|]. change 4294967296 with (2 ^ 32).
    replace 32 with (8 * Z.of_nat (length bs) + (32 - 8 * Z.of_nat (length bs))) by lia. rewrite Z.pow_add_r by lia. apply Z.divide_factor_l.
  - assert (length (firstn 4 bs) = 4%nat) as L4 by (rewrite firstn_length; lia).
    rewrite firstn_all2 by (rewrite le_bytes_length; lia).
    pose proof (Forall_part _ _ bs 4 F) as [F4 FS].
    assert (le_val bs = le_val (firstn 4 bs) + 4294967296 * le_val (skipn 4 bs)) as EV.
    { rewrite <- (firstn_skipn 4 bs) at 1. rewrite le_val_app. unfold zlen. rewrite L4. reflexivity. }
    pose proof (le_val_range _ F4) as R4. unfold zlen in R4. rewrite L4 in R4. change (2 ^ (8 * Z.of_nat 4)) with 4294967296 in R4.
    assert (le_val bs mod 4294967296 = le_val (firstn 4 bs)) as EM by (rewrite EV, Z.mul_comm, Z_mod_plus_full, Z.mod_small by lia; reflexivity).
    assert ((le_val bs + x) mod 4294967296 = (le_val (firstn 4 bs) + x) mod 4294967296) as EX.
    { rewrite EV. replace (le_val (firstn 4 bs) + 4294967296 * le_val (skipn 4 bs) + x) with (le_val (firstn 4 bs) + x + le_val (skipn 4 bs) * 4294967296) by lia.
      apply Z_mod_plus_full. }
    rewrite EM, EX. rewrite EV. set (y := le_val (firstn 4 bs) + x).
    replace (le_val (firstn 4 bs) + 4294967296 * le_val (skipn 4 bs) - le_val (firstn 4 bs) + y mod 4294967296) with (y mod 4294967296 + 4294967296 * le_val (skipn 4 bs)) by lia.
    pose proof (Z.mod_pos_bound y 4294967296 ltac:(lia)) as RY.
    replace (length bs) with (4 + length (skipn 4 bs))%nat by (rewrite skipn_length; lia).
    rewrite le_bytes_app. change (2 ^ (8 * Z.of_nat 4)) with 4294967296.
    f_equal.
    + apply le_bytes_cong. change (2 ^ (8 * Z.of_nat 4)) with 4294967296. rewrite Z.mul_comm, Z_mod_plus_full, Z.mod_mod by lia. reflexivity.
    + rewrite (Z.mul_comm 4294967296), Z_div_plus_full, Z.div_small by lia. rewrite Z.add_0_l. symmetry. apply le_bytes_val. exact FS.
Qed.
Lemma with_target_bytes : forall fx bs, Forall is_byte bs -> Forall is_byte (with_target fx bs) /\ length (with_target fx bs) = length bs.
Proof.
  intros fx bs F. unfold with_target. destruct (_ || _); [auto|]. split; [apply le_bytes_byte|apply le_bytes_length].
Qed.
Lemma store_fixup_eq : forall fx bs s, Forall is_byte bs ->
  fst (store_fixup fx bs s) = with_target fx bs.
Proof.
  intros fx bs s F. unfold store_fixup, with_target. cbn [fst]. change FIX_SEG with 8.
  destruct (f_sym fx); cbn [orb]; try reflexivity; destruct (f_type fx =? 8); cbn [negb orb]; try reflexivity; apply with_target_eq; exact F.
Qed.
Lemma fix_step : forall s w fx bs, Inv s w -> Forall is_byte bs -> bs <> [] -> sound fx -> fits (emit (with_target fx bs) w) ->
  let fx' := set_locofs fx (current_loc (CurrSeg s)) in
  forall r, (let '(bs, s) := store_fixup fx' bs s in bindr (poke (index s) bs s) (fun s => Ok (advance (zlen bs) s))) = Ok r ->
  Inv r (act (OBytes bs (Some fx)) w).
Proof.
  intros s w fx bs H B NB SD F fx' r. destruct (index_inv s w H) as [EI RI]. pose proof (fits_emit s w _ H F) as FB.
  destruct (with_target_bytes fx bs B) as [WB WL].
  pose proof (zlen_nonneg (with_target fx bs)) as ZB.
  pose proof (curr_inv s w H) as (G1 & G2 & G3 & G4 & G5 & G6).
  rewrite (surjective_pairing (store_fixup fx' bs s)). cbv beta iota zeta. rewrite store_fixup_eq by exact B.
  change (with_target fx' bs) with (with_target fx bs). set (bs' := with_target fx bs) in *.
  set (g := CurrSeg s) in *.
  set (g1 := {| sg_idx := sg_idx g; start_loc := start_loc g; current_loc := current_loc g; max_offset := max_offset g; fixups := fixups g ++ [fx'] |}).
  change (snd (store_fixup fx' bs s)) with (set_seg s g1).
  assert (CurrSeg (set_seg s g1) = g1) as EC by (unfold set_seg; apply curr_set with (w := w); exact H).
  assert (index (set_seg s g1) = index s) as EI' by (unfold index; rewrite EC; reflexivity). rewrite EI'.
  unfold poke. destruct (Z.leb_spec (index s + zlen bs') CODEBUF_SIZE) as [E|E]; cbn [bindr]; [|discriminate].
  intros R. injection R as <-. unfold CODEBUF_SIZE in E.
  assert (Forall (fun fx => sound fx /\ f_locofs fx = loc (at_ w)) [fx']) as FN.
  { apply Forall_cons; [|apply Forall_nil]. split; [|exact G2]. destruct SD as [S1 S2]. split; [exact S1|]. unfold fx'. rewrite asked_locofs.
    destruct (asked 0 fx); [exact S2|constructor]. }
  assert (bs' <> []) as NB'. { intros E0. apply NB. destruct bs; [reflexivity|]. rewrite E0 in WL. discriminate. }
  pose proof (emit_inv s w bs' [fx'] H WB F FN ltac:(intros _; exact NB') ltac:(fold g; lia)) as EM. cbv zeta in EM. fold g in EM. cbn [map] in EM.
  unfold advance. 
  match goal with |- Inv (set_seg ?x _) _ => change (CurrSeg x) with (CurrSeg (set_seg s g1)) end. rewrite EC.
  unfold set_seg. cbn [segs cur codebuf recs]. rewrite set_nth_twice. unfold g1. cbn [sg_idx start_loc current_loc max_offset fixups].
  rewrite wrap_small by (change (2 ^ 32) with 4294967296; lia).
  replace (if current_loc g + zlen bs' >? max_offset g then current_loc g + zlen bs' else max_offset g)
    with (Z.max (max_offset g) (current_loc g + zlen bs'))
    by (destruct (Z.gtb_spec (current_loc g + zlen bs') (max_offset g)); lia).
  rewrite EI. replace (Z.to_nat (current_loc g - start_loc g + zlen bs')) with (Z.to_nat (current_loc g - start_loc g) + length bs')%nat by (unfold zlen; lia).
  cbn [act]. fold bs'. rewrite <- G2. exact EM.
Qed.
Lemma flush_if : forall s w (b : bool), Inv s w -> exists s', (if b then omf_FlushCurrSeg s else Ok s) = Ok s' /\ Inv s' w /\
  (b = true -> index s' = 0) /\ (b = false -> s' = s).
Proof.
  intros s w b H. destruct b.
  - destruct (flush_inv s w H) as (s' & E & I' & A & _). exists s'. split; [exact E|]. split; [exact I'|]. split; [|discriminate].
    intros _. destruct (index_inv s' w I'). lia.
  - exists s. split; [reflexivity|]. split; [exact H|]. split; [discriminate|auto].
Qed.
Lemma zlen_wide : forall bs, zlen (flat_map (fun c => [c; 0]) bs) = 2 * zlen bs.
Proof. induction bs as [|b bs IH]; [reflexivity|]. cbn [flat_map]. rewrite zlen_app, IH. change (zlen [b; 0]) with 2. rewrite zlen_cons. lia. Qed.
Lemma step_inv : forall o s w r, Inv s w -> op_ok (length (counters w)) o -> fits (act o w) -> step o s = Ok r -> Inv r (act o w).
Proof.
  intros o s w r H OK F. destruct o as [b|bs fx|bs|bs|v|v|n]; cbn [step act op_ok] in *.
  - unfold OutputByte. destruct (flush_if s w (index s >=? MAX_LEDATA_THRESHOLD) H) as (s' & -> & I' & _). cbn [bindr].
    apply (put_step s' w [b] I'); [|exact F]. apply Forall_cons; [exact OK|apply Forall_nil].
  - unfold OutputBytes. destruct (flush_if s w (wrap 32 (index s + zlen bs) >? MAX_LEDATA_THRESHOLD) H) as (s' & -> & I' & _). cbn [bindr].
    destruct OK as (B & _ & OK). destruct fx as [fx|].
    + destruct OK as (NB & F1 & F2). apply fix_step; auto. split; assumption.
    + apply put_step; auto.
  - unfold OutputInterleavedBytes. destruct (flush_if s w (wrap 32 (index s + zlen bs) >? MAX_LEDATA_THRESHOLD) H) as (s' & -> & I' & _). cbn [bindr].
    rewrite <- zlen_wide. apply put_step; auto. destruct OK as [B _]. induction B as [|c bs B1 B2 IH]; cbn [flat_map]; [apply Forall_nil|].
    apply Forall_app. split; [|]. { apply Forall_cons; [exact B1|]. apply Forall_cons; [unfold is_byte; lia|apply Forall_nil]. }
    clear - B2. induction B2 as [|x l A1 A2 IH]; cbn [flat_map]; [apply Forall_nil|]. apply Forall_app. split; [|exact IH].
    apply Forall_cons; [exact A1|]. apply Forall_cons; [unfold is_byte; lia|apply Forall_nil].
  - unfold OutputBinBytes. destruct (flush_if s w (index s >=? MAX_LEDATA_THRESHOLD) H) as (s' & -> & I' & _). cbn [bindr]. apply put_step; auto. apply OK.
  - unfold SetCurrOffset. destruct (flush_inv s w H) as (s' & E & I' & A1 & A2). unfold omf_FlushCurrSeg. rewrite E. cbn [bindr]. intros R. injection R as <-.
    apply (move_inv s' w v I' A1 A2); [lia|exact F].
  - unfold SetCurrOffset. destruct (flush_inv s w H) as (s' & E & I' & A1 & A2). unfold omf_FlushCurrSeg. rewrite E. cbn [bindr]. intros R. injection R as <-.
    pose proof (curr_inv s w H) as (G1 & G2 & G3 & G4 & G5 & G6).
    pose proof (fits_nth _ (here w) F) as HF. rewrite nth_move, Nat.eqb_refl in HF by apply (i_here _ _ H). cbn [high] in HF.
    rewrite wrap_small by (change (2 ^ 32) with 4294967296; lia). replace (v + current_loc (CurrSeg s)) with (loc (at_ w) + v) by lia.
    apply (move_inv s' w _ I' A1 A2); [lia|exact F].
  - unfold switch. destruct (flush_inv s w H) as (s' & E & I' & A1 & A2). unfold omf_FlushCurrSeg. rewrite E. cbn [bindr]. intros R. injection R as <-.
    apply (switch_inv s' w n I' A1 A2 OK).
Qed.
Lemma act_counters : forall o w, length (counters (act o w)) = length (counters w).
Proof.
  intros o w. destruct o as [b|bs fx|bs|bs|v|v|n]; cbn [act]; try destruct fx; unfold emit; cbn [counters]; try apply counters_move; reflexivity.
Qed.
Lemma Forall_nth_high : forall w, fits w <-> forall k, high (nth k (counters w) none) < 4294967296.
Proof.
  intros w. split; [intros; apply fits_nth; assumption|]. intros A. apply Forall_forall. intros c Hc. apply (In_nth _ _ none) in Hc.
  destruct Hc as (k & _ & <-). apply A.
Qed.
Lemma fits_move : forall w v, (here w < length (counters w))%nat -> fits (move w v) -> fits w.
Proof.
  intros w v Hw F. apply Forall_nth_high. intros k. pose proof (fits_nth _ k F) as A. rewrite nth_move in A by exact Hw.
  revert A. destruct (Nat.eqb_spec k (here w)) as [Ek|Ek]; intros A; [|exact A]. cbn [high] in A. unfold at_ in A. rewrite Ek. lia.
Qed.
Lemma fits_act : forall o w, (here w < length (counters w))%nat -> fits (act o w) -> fits w.
Proof.
  intros o w Hw. destruct o as [b|bs fx|bs|bs|v|v|n]; cbn [act]; try destruct fx; unfold emit, fits; cbn [counters]; try (apply fits_move; exact Hw); auto.
Qed.
Lemma act_here : forall o w, op_ok (length (counters w)) o -> (here w < length (counters w))%nat -> (here (act o w) < length (counters w))%nat.
Proof.
  intros o w OK Hw. destruct o as [b|bs fx|bs|bs|v|v|n]; cbn [act]; try destruct fx; unfold emit; cbn [here move]; auto.
Qed.
Lemma fits_acts : forall os w, Forall (op_ok (length (counters w))) os -> (here w < length (counters w))%nat -> fits (acts os w) -> fits w.
Proof.
  induction os as [|o os IH]; intros w OK Hw F; [exact F|]. inversion OK as [|? ? O1 O2]; subst. apply (fits_act o w Hw).
  unfold acts in F. cbn [fold_left] in F. apply IH; rewrite ?act_counters; auto. apply act_here; assumption.
Qed.
Lemma run_inv : forall os s w r, Inv s w -> Forall (op_ok (length (counters w))) os -> fits (acts os w) -> run os s = Ok r -> Inv r (acts os w).
Proof.
  induction os as [|o os IH]; intros s w r H OK F R; [injection R as <-; exact H|]. inversion OK as [|? ? O1 O2]; subst.
  cbn [run] in R. destruct (step o s) as [s1| |] eqn:E; cbn [bindr] in R; try discriminate.
  unfold acts in *. cbn [fold_left] in *.
  assert (fits (act o w)) as F1.
  { apply (fits_acts os); rewrite ?act_counters; auto. apply act_here; [exact O1|]. apply (i_here _ _ H). }
  apply (IH s1 (act o w) r); rewrite ?act_counters; auto. apply (step_inv o s w); auto.
Qed.
(** * no overflow *)
Lemma put_total : forall s w bs, Inv s w -> index s + zlen bs <= 1024 -> exists r, bindr (poke (index s) bs s) (fun s => Ok (advance (zlen bs) s)) = Ok r.
Proof. intros s w bs H L. unfold poke, CODEBUF_SIZE. replace (index s + zlen bs <=? 1024) with true by lia. cbn [bindr]. eexists. reflexivity. Qed.
Lemma step_total : forall o s w, Inv s w -> op_ok (length (counters w)) o -> gentle o -> exists r, step o s = Ok r.
Proof.
  intros o s w H OK G. destruct (index_inv s w H) as [_ RI]. destruct o as [b|bs fx|bs|bs|v|v|n]; cbn [step op_ok gentle] in *.
  - unfold OutputByte. destruct (flush_if s w (index s >=? MAX_LEDATA_THRESHOLD) H) as (s' & -> & I' & C1 & C2). cbn [bindr].
    apply (put_total s' w [b] I'). change (zlen [b]) with 1. unfold MAX_LEDATA_THRESHOLD in *. destruct (Z.geb_spec (index s) (1024 - 10)); [rewrite C1 by reflexivity|rewrite C2 by reflexivity]; lia.
  - unfold OutputBytes. pose proof (zlen_nonneg bs). destruct OK as (B & _ & OK).
    destruct (flush_if s w (wrap 32 (index s + zlen bs) >? MAX_LEDATA_THRESHOLD) H) as (s' & -> & I' & C1 & C2). cbn [bindr].
    rewrite wrap_small in * by (change (2 ^ 32) with 4294967296; lia). 
    assert (index s' + zlen bs <= 1024) as L.
    { unfold MAX_LEDATA_THRESHOLD in *. destruct (Z.gtb_spec (index s + zlen bs) (1024 - 10)); [rewrite C1 by reflexivity|rewrite C2 by reflexivity]; lia. }
    destruct fx as [fx|]; [|apply (put_total s' w bs I' L)].
    rewrite (surjective_pairing (store_fixup _ bs s')). cbv beta iota zeta. rewrite store_fixup_eq by exact B.
    set (fx' := set_locofs fx _). destruct (with_target_bytes fx' bs B) as [_ WL].
    assert (index (snd (store_fixup fx' bs s')) = index s') as EI.
    { unfold index, store_fixup, set_seg. cbn [snd]. rewrite (curr_set s' w) by exact I'. reflexivity. }
    rewrite EI. unfold poke, CODEBUF_SIZE. unfold zlen at 1. rewrite WL. fold (zlen bs). replace (index s' + zlen bs <=? 1024) with true by lia. cbn [bindr]. eexists. reflexivity.
  - unfold OutputInterleavedBytes. pose proof (zlen_nonneg bs).
    destruct (flush_if s w (wrap 32 (index s + zlen bs) >? MAX_LEDATA_THRESHOLD) H) as (s' & -> & I' & C1 & C2). cbn [bindr].
    rewrite wrap_small in * by (change (2 ^ 32) with 4294967296; lia). rewrite <- zlen_wide. apply (put_total s' w _ I'). rewrite zlen_wide.
    unfold MAX_LEDATA_THRESHOLD in *. destruct (Z.gtb_spec (index s + zlen bs) (1024 - 10)); [rewrite C1 by reflexivity|rewrite C2 by reflexivity]; lia.
  - unfold OutputBinBytes. pose proof (zlen_nonneg bs). destruct (flush_if s w (index s >=? MAX_LEDATA_THRESHOLD) H) as (s' & -> & I' & C1 & C2). cbn [bindr].
    apply (put_total s' w bs I'). unfold MAX_LEDATA_THRESHOLD in *. destruct (Z.geb_spec (index s) (1024 - 10)); [rewrite C1 by reflexivity|rewrite C2 by reflexivity]; lia.
  - unfold SetCurrOffset. destruct (flush_inv s w H) as (s' & E & _). unfold omf_FlushCurrSeg. rewrite E. eexists. reflexivity.
  - unfold SetCurrOffset. destruct (flush_inv s w H) as (s' & E & _). unfold omf_FlushCurrSeg. rewrite E. eexists. reflexivity.
  - unfold switch. destruct (flush_inv s w H) as (s' & E & _). unfold omf_FlushCurrSeg. rewrite E. eexists. reflexivity.
Qed.
Lemma run_total : forall os s w, Inv s w -> Forall (op_ok (length (counters w))) os -> Forall gentle os -> fits (acts os w) -> exists r, run os s = Ok r.
Proof.
  induction os as [|o os IH]; intros s w H OK G F; [eexists; reflexivity|]. inversion OK as [|? ? O1 O2]; subst. inversion G as [|? ? G1 G2]; subst.
  destruct (step_total o s w H O1 G1) as [s1 E]. cbn [run]. rewrite E. cbn [bindr]. unfold acts in F. cbn [fold_left] in F.
  assert (fits (act o w)) as F1.
  { apply (fits_acts os); rewrite ?act_counters; auto. apply act_here; [exact O1|]. apply (i_here _ _ H). }
  apply (IH s1 (act o w)); rewrite ?act_counters; auto. apply (step_inv o s w); auto.
Qed.
(** * the module *)
Lemma init_inv : forall sizes, sizes_ok sizes -> Inv (init sizes) (start sizes).
Proof.
  intros sizes [NE F].
  assert (forall k, nth k (segs (init sizes)) no_seg = let c := nth k (counters (start sizes)) none in {| sg_idx := c_idx c; start_loc := 0; current_loc := 0; max_offset := high c; fixups := [] |}) as EN.
  { clear F NE. cbn [segs init counters start]. induction sizes as [|[i m] l IH]; intros [|k]; cbn; auto. }
  assert (forall k, (k < length (counters (start sizes)))%nat -> loc (nth k (counters (start sizes)) none) = 0 /\ 0 <= high (nth k (counters (start sizes)) none) < 2 ^ 32 /\ 0 <= c_idx (nth k (counters (start sizes)) none) < 2 ^ 15) as EC.
  { clear EN NE. cbn [counters start]. induction sizes as [|[i m] l IH]; intros k Hk; cbn in Hk; [lia|]. inversion F as [|? ? [F1 F2] F3]; subst. cbn [fst snd] in *.
    destruct k as [|k]; cbn [map nth loc high c_idx]; [auto|]. apply IH; [exact F3|lia]. }
  assert ((here (start sizes) < length (counters (start sizes)))%nat) as HH.
  { cbn. rewrite map_length. destruct sizes; [congruence|cbn; lia]. }
  constructor; unfold CurrSeg.
  - cbn. rewrite !map_length. reflexivity.
  - reflexivity.
  - exact HH.
  - intros k Hk. rewrite EN. destruct (EC k Hk) as (C1 & C2 & C3). unfold seg_inv. cbn [sg_idx current_loc max_offset start_loc]. rewrite C1.
    change (2 ^ 32) with 4294967296 in C2. do 3 (split; [reflexivity|]). split; [lia|]. split; [lia|exact C3].
  - intros k Hk _. rewrite EN. cbn. auto.
  - rewrite EN. cbn. apply Forall_nil.
  - cbn [codebuf init]. rewrite repeat_length. reflexivity.
  - cbn [codebuf init]. apply Forall_forall. intros x Hx. apply repeat_spec in Hx. subst x. unfold is_byte. lia.
  - rewrite EN. cbn. lia.
  - apply Forall_nil.
  - exists no_load. split; [reflexivity|]. rewrite EN. split; [|cbn; apply perm_nil].
    unfold buffered, CurrSeg. rewrite EN. cbn. apply same_refl.
Qed.
Lemma records_total : forall rs, Forall (fun r => rec_ok r /\ zlen (r_data r) <= 1024) rs -> exists bytes, omf_write_records rs = Ok bytes.
Proof.
  induction rs as [|r rs IH]; intros F; [eexists; reflexivity|]. inversion F as [|? ? [F1 F2] F3]; subst. cbn [omf_write_records].
  destruct (write_record_total r F1 ltac:(lia)) as [b ->]. destruct (IH F3) as [bs ->]. eexists. reflexivity.
Qed.
Theorem module_load : forall sizes os st, sizes_ok sizes -> Forall (op_ok (length sizes)) os -> fits (acts os (start sizes)) -> module sizes os = Ok st ->
  let w := acts os (start sizes) in
  exists bytes vs L, omf_write_records (recs st) = Ok bytes /\ read_views bytes = Some vs /\ load vs (0, 0) no_load = Some L /\
    same (l_mem L) (image w) /\ Permutation (l_relocs L) (flat_map asked_of (relocs w)) /\
    map (fun g => (sg_idx g, max_offset g)) (segs st) = map (fun c => (c_idx c, high c)) (counters w) /\
    Forall (fun r => zlen (r_data r) <= 1024) (recs st).
Proof.
  intros sizes os st SO OK F M w. pose proof (init_inv sizes SO) as II.
  assert (length (counters (start sizes)) = length sizes) as LC by (cbn; apply map_length).
  unfold module in M. destruct (run os (init sizes)) as [s1| |] eqn:R; cbn [bindr] in M; try discriminate.
  assert (Inv s1 w) as I1 by (apply (run_inv os (init sizes)); rewrite ?LC; auto).
  destruct (flush_inv s1 w I1) as (s2 & E & I2 & A1 & A2). unfold omf_FlushCurrSeg in M. rewrite E in M. injection M as <-.
  destruct (i_load _ _ I2) as (L & L1 & L2 & L3).
  destruct (records_total _ (i_recs _ _ I2)) as [bytes EB].
  assert (Forall rec_ok (recs s2)) as FR by (eapply Forall_impl; [|apply (i_recs _ _ I2)]; intros r [X _]; exact X).
  destruct (omf_records_roundtrip _ _ FR EB) as [_ RV].
  exists bytes, (map meaning (recs s2)), L. split; [exact EB|]. split; [exact RV|]. split; [exact L1|].
  split. { unfold buffered in L2. rewrite A1, Z.sub_diag in L2. exact L2. }
  split. { rewrite A2 in L3. cbn [map flat_map] in L3. rewrite app_nil_r in L3. exact L3. }
  split; [|eapply Forall_impl; [|apply (i_recs _ _ I2)]; intros r [_ X]; exact X].
  apply (nth_ext _ _ (0, 0) (0, 0)); [rewrite !map_length; apply (i_len _ _ I2)|]. intros k Hk. rewrite map_length, (i_len _ _ I2) in Hk.
  rewrite (nth_indep _ _ ((fun g => (sg_idx g, max_offset g)) no_seg)) by (rewrite map_length, (i_len _ _ I2); exact Hk).
  rewrite (nth_indep (map _ (counters w)) _ ((fun c => (c_idx c, high c)) none)) by (rewrite map_length; exact Hk).
  rewrite (map_nth (fun g => (sg_idx g, max_offset g))), (map_nth (fun c => (c_idx c, high c))). destruct (i_seg _ _ I2 k Hk) as (-> & _ & -> & _). reflexivity.
Qed.
Theorem module_total : forall sizes os, sizes_ok sizes -> Forall (op_ok (length sizes)) os -> Forall gentle os -> fits (acts os (start sizes)) ->
  exists st, module sizes os = Ok st.
Proof.
  intros sizes os SO OK G F. pose proof (init_inv sizes SO) as II.
  assert (length (counters (start sizes)) = length sizes) as LC by (cbn; apply map_length).
  destruct (run_total os (init sizes) (start sizes) II) as [s1 R]; rewrite ?LC; auto.
  assert (Inv s1 (acts os (start sizes))) as I1 by (apply (run_inv os (init sizes)); rewrite ?LC; auto).
  destruct (flush_inv s1 _ I1) as (s2 & E & _). unfold module. rewrite R. cbn [bindr]. exists s2. exact E.
Qed.
