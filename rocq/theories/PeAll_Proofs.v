(** pe_set_values as a whole. *)
From Coq Require Import ZArith List Bool Lia Permutation Sorted.
From Verif Require Import Base Sort_Model Sort_Spec Sort_Proofs Pe_Model Pe_Spec PeReloc_Proofs PePlace_Proofs PeTable_Proofs.
Import ListNotations.
Open Scope Z_scope.

Local Arguments Z.pow : simpl never.
Local Arguments Z.div : simpl never.
Local Arguments Z.modulo : simpl never.

(** ** The order *)

Lemma lower_plain : forall c, lower c = plain c.
Proof.
  intro c. unfold lower, plain. cbn [seq map existsb Z.of_nat Pos.of_succ_nat Pos.succ].
  destruct ((65 <=? c) && (c <=? 90)) eqn:E.
  - apply andb_prop in E as [E1 E2]. apply Z.leb_le in E1, E2.
    match goal with |- _ = if ?b then _ else _ => assert (H : b = true) end; [|rewrite H; reflexivity].
    rewrite !orb_true_iff, !Z.eqb_eq. lia.
  - match goal with |- _ = if ?b then _ else _ => assert (H : b = false) end; [|rewrite H; reflexivity].
    apply andb_false_iff in E. rewrite !Z.leb_gt in E. rewrite !orb_false_iff, !Z.eqb_neq. repeat split; lia.
Qed.

Lemma rank_cases : forall t, (lname_idx t = place_of t kinds /\ lname_idx t < 7) \/ (lname_idx t = 10 /\ place_of t kinds = 7).
Proof.
  intro t. unfold lname_idx, kinds, T_HDR, T_CODE, T_CDATA, T_DATA, T_BSS, T_RSRC, T_RELOC, T_ERROR. cbn [place_of].
  rewrite !(Z.eqb_sym _ t).
  repeat match goal with |- context [if ?x =? ?y then _ else _] => destruct (x =? y); [left; lia|] end. right. lia.
Qed.

Lemma order_eq : forall a b, lname_gt (sort_key a) (sort_key b) = behind a b.
Proof.
  intros a b. unfold behind, sort_key, idx.
  rewrite !(map_ext lower plain lower_plain). unfold lname_gt. cbn [fst snd].
  destruct (rank_cases (p_type a)) as [[A1 A2]|[A1 A2]], (rank_cases (p_type b)) as [[B1 B2]|[B1 B2]]; rewrite A1, B1, ?A2, ?B2.
  - reflexivity.
  - rewrite A1 in A2. f_equal; [|f_equal]; [destruct (Z.gtb_spec (place_of (p_type a) kinds) 10), (Z.gtb_spec (place_of (p_type a) kinds) 7)|
      destruct (Z.eqb_spec (place_of (p_type a) kinds) 10), (Z.eqb_spec (place_of (p_type a) kinds) 7)]; try reflexivity; lia.
  - rewrite B1 in B2. f_equal; [|f_equal]; [destruct (Z.gtb_spec 10 (place_of (p_type b) kinds)), (Z.gtb_spec 7 (place_of (p_type b) kinds))|
      destruct (Z.eqb_spec 10 (place_of (p_type b) kinds)), (Z.eqb_spec 7 (place_of (p_type b) kinds))]; try reflexivity; lia.
  - reflexivity.
Qed.

Definition gt_model (a b : seg) : bool := lname_gt (sort_key a) (sort_key b).

Lemma gt_weak : weak_order gt_model.
Proof. unfold gt_model. apply (weak_map _ _ sort_key). apply lname_weak. Qed.

Lemma stably_ext : forall (A : Type) (g h : A -> A -> bool) l l', (forall a b, g a b = h a b) -> stably_sorted g l l' -> stably_sorted h l l'.
Proof.
  intros A g h l l' E (P & S0 & F). split; [exact P|]. split.
  - clear - S0 E. induction S0 as [|a r S1 IH S2]; constructor; [exact IH|]. eapply Forall_impl; [|exact S2]. intros b H; cbv beta in *; rewrite <- E; exact H.
  - intro x. rewrite (filter_ext _ (same_key g x)) by (intro; unfold same_key; rewrite !E; reflexivity).
    rewrite F. apply filter_ext. intro. unfold same_key. rewrite !E. reflexivity.
Qed.

Lemma gt_false : forall a b, gt_model a b = false -> idx a <= idx b.
Proof. intros a b H. unfold gt_model, lname_gt, sort_key in H. cbn [fst snd] in H. apply orb_false_elim in H as [H _]. rewrite Z.gtb_ltb in H. apply Z.ltb_ge in H. lia. Qed.

Lemma sorted_asc : forall l i, StronglySorted (fun a b => gt_model a b = false) l -> (match l with s :: _ => i <= idx s | [] => True end) -> ascending i l.
Proof.
  induction l as [|s l IH]; intros i S0 H; [exact Logic.I|]. inversion S0 as [|? ? S1 S2]; subst. cbn [ascending]. split; [exact H|].
  apply IH; [exact S1|]. destruct l as [|x l]; [exact Logic.I|]. apply gt_false. exact (Forall_inv S2).
Qed.

(** Changing segments but not their keys. *)
Lemma stably_map : forall (g : seg -> seg) l l', (forall s, sort_key (g s) = sort_key s) -> stably_sorted gt_model l l' -> stably_sorted gt_model (map g l) (map g l').
Proof.
  intros g l l' K (P & S0 & F). split; [apply Permutation_map; exact P|]. split.
  - clear - S0 K. induction S0 as [|a r S1 IH S2]; cbn [map]; constructor; [exact IH|].
    apply Forall_forall. intros y Y. apply in_map_iff in Y as (z & <- & Z0). rewrite Forall_forall in S2. unfold gt_model. rewrite !K. apply S2. exact Z0.
  - intro x. assert (M : forall u, filter (same_key gt_model x) (map g u) = map g (filter (same_key gt_model x) u)).
    { induction u as [|a u IH]; [reflexivity|]. cbn [map filter].
      assert (E : same_key gt_model x (g a) = same_key gt_model x a) by (unfold same_key, gt_model; rewrite !K; reflexivity).
      rewrite E. destruct (same_key gt_model x a); cbn [map]; rewrite IH; reflexivity. }
    rewrite !M, F. reflexivity.
Qed.

(** ** Segments *)

Lemma place_segs : forall k ma l first i b f, map q_s (fst (place k ma first i b f l)) = l.
Proof.
  intros k ma. induction l as [|s l IH]; intros first i b f; [reflexivity|]. cbn [place].
  match goal with |- context [place k ma false ?i ?x ?y l] => specialize (IH false i x y); destruct (place k ma false i x y l) as [t z] end.
  cbn [fst map q_s] in *. rewrite IH. reflexivity.
Qed.

Definition with_relocs (size : Z) (b : list Z) (s : seg) : seg :=
  if p_type s =? T_RELOC then
    {| p_name := p_name s; p_title := p_title s; p_type := p_type s; p_ro := p_ro s;
       p_const := p_const s; p_stack := p_stack s; p_chars := p_chars s;
       p_align := p_align s; p_loc := p_loc s; p_size := size;
       p_written := p_written s; p_buf := Some b; p_fix := p_fix s |}
  else s.

Lemma set_reloc_seg : forall size b q, q_s (set_reloc size b q) = with_relocs size b (q_s q).
Proof. intros. unfold set_reloc, with_relocs. destruct (p_type (q_s q) =? T_RELOC); reflexivity. Qed.

Lemma with_key : forall size b s, sort_key (with_relocs size b s) = sort_key s.
Proof. intros. unfold with_relocs. destruct (p_type s =? T_RELOC); reflexivity. Qed.

Lemma set_reloc_id : forall size b q, p_type (q_s q) <> T_RELOC -> set_reloc size b q = q.
Proof. intros size b q H. unfold set_reloc. apply Z.eqb_neq in H. rewrite H. reflexivity. Qed.

Definition typed (segs : list seg) : list seg := map (fun s => set_type s (retype s)) segs.

Lemma typed_other : forall segs, Forall (fun s => retype s <> T_RELOC) segs -> Forall (fun s => p_type s <> T_RELOC) (typed segs).
Proof. intros segs F. unfold typed. apply Forall_map. exact F. Qed.

(** The list after sorting and what becomes of it. *)
Definition st0 : fst_ := {| s_done := []; s_cur := no_sect; s_i := -1; s_hdr := 0; s_cb := 0; s_cs := 0; s_db := 0; s_ds := 0 |}.
Definition values_of (k m : Z) (segs : list seg) (pl : list placed) (rva : Z) (relocs : bool) : values :=
  let f := fill (2 ^ k) pl st0 in
  {| v_segs := pl; v_table := s_done f ++ [s_cur f]; v_number := objects (typed segs) + (if relocs then 1 else 0);
     v_image := round_up rva (2 ^ m); v_headers := s_hdr f;
     v_cb := s_cb f; v_cs := s_cs f; v_db := s_db f; v_ds := s_ds f |}.

Lemma values_plain : forall k m segs, 0 <= k <= 16 -> exists l, stably_sorted gt_model (typed segs) l /\
  let '(pl, rva) := place k (2 ^ m) true (-1) 0 0 l in
  pe_set_values false (2 ^ k) (2 ^ m) segs = Some (values_of k m segs pl rva false).
Proof.
  intros k m segs K. destruct (sort_ok _ gt_weak (typed segs)) as (l & E & S0). exists l. split; [exact S0|].
  unfold pe_set_values. fold (typed segs). rewrite app_nil_r. fold gt_model. change (fun a b => gt_model a b) with gt_model. rewrite E.
  rewrite bit_ok by exact K. destruct (place k (2 ^ m) true (-1) 0 0 l) as [pl rva]. reflexivity.
Qed.

Lemma values_relocs : forall k m segs, 0 <= k <= 16 -> exists l, stably_sorted gt_model (typed segs ++ [reloc_seg]) l /\
  let '(pl, rva) := place k (2 ^ m) true (-1) 0 0 l in
  let '(size, b) := base_relocs pl in
  pe_set_values true (2 ^ k) (2 ^ m) segs = Some (values_of k m segs (map (set_reloc size b) pl)
    (match find (fun q => p_type (q_s q) =? T_RELOC) pl with Some q => wrap 32 (q_rva q + size) | None => rva end) true).
Proof.
  intros k m segs K. destruct (sort_ok _ gt_weak (typed segs ++ [reloc_seg])) as (l & E & S0). exists l. split; [exact S0|].
  unfold pe_set_values. fold (typed segs). fold gt_model. change (fun a b => gt_model a b) with gt_model. rewrite E.
  rewrite bit_ok by exact K. destruct (place k (2 ^ m) true (-1) 0 0 l) as [pl rva]. destruct (base_relocs pl) as [size b]. reflexivity.
Qed.

(** ** Regular programs *)

Lemma bases_app : forall fa ma R R' b f, bases fa ma b f (R ++ R') =
  bases fa ma b f R ++ bases fa ma (fst (ends fa ma b f R)) (snd (ends fa ma b f R)) R'.
Proof. intros fa ma. induction R as [|r R IH]; intros R' b f; [reflexivity|]. cbn [app bases ends]. rewrite IH. reflexivity. Qed.

Lemma ends_app : forall fa ma R R' b f, ends fa ma b f (R ++ R') = ends fa ma (fst (ends fa ma b f R)) (snd (ends fa ma b f R)) R'.
Proof. intros fa ma. induction R as [|r R IH]; intros R' b f; [reflexivity|]. cbn [app ends]. rewrite IH. reflexivity. Qed.

Lemma concat_forall : forall (P : seg -> Prop) R, Forall P (concat R) -> Forall (Forall P) R.
Proof. intros P. induction R as [|r R IH]; intro F; [constructor|]. cbn [concat] in F. apply Forall_app in F as [F1 F2]. constructor; auto. Qed.

Lemma ok_runs : forall k l, Forall sound l -> Forall (tidy k) (iruns l) -> Forall (okrun k) (iruns l).
Proof.
  intros k l S0 T. pose proof S0 as S1. rewrite <- (iruns_concat l) in S1. apply concat_forall in S1.
  rewrite Forall_forall in *. intros r R. split; [apply Forall_forall; intros s X; specialize (S1 r R); rewrite Forall_forall in S1; apply S1; exact X|].
  apply (T r R).
Qed.

Lemma place_regular : forall k m l, regular k m l -> ascending (-1) l ->
  place k (2 ^ m) true (-1) 0 0 l = (positions (2 ^ k) (2 ^ m) l, fst (ends (2 ^ k) (2 ^ m) 0 0 (runs l))).
Proof.
  intros k m l RG A. destruct RG as [K M SO TI HD FX SM [E1 E2]].
  assert (RE : runs l = iruns l) by (apply runs_eq; exact SO). rewrite RE in *.
  assert (NE : l <> []) by (destruct HD as [HD _]; intro; subst; discriminate).
  destruct l as [|s l]; [congruence|].
  rewrite place_first by (apply (so_loc s); exact (Forall_inv SO)).
  assert (CH : chain (-1) (iruns (s :: l))).
  { cbn [ascending] in A. destruct A as [A1 A2]. apply chain_runs; [|cbn [ascending]; split; [lia|exact A2]].
    pose proof (idx_range (p_type s) (so_idx s (Forall_inv SO))). unfold idx. lia. }
  pose proof (place_ok k m (iruns (s :: l)) (-1) 0 0 [] K M CH (ok_runs k (s :: l) SO TI) ltac:(lia) ltac:(lia)) as P.
  rewrite app_nil_r, iruns_concat in P.
  rewrite P; [|unfold LIM; change (2 ^ 31) with 2147483648; change (2 ^ 30) with 1073741824 in *; lia..].
  unfold positions. rewrite RE. destruct (ends (2 ^ k) (2 ^ m) 0 0 (iruns (s :: l))) as [b' f']. cbn [place fst].
  rewrite app_nil_r. reflexivity.
Qed.
