(** C16: relocations and the symbol table. *)
From Verif Require Import Base Coff_Model Coff_Spec CoffStr_Proofs CoffSym_Proofs CoffEnt_Proofs CoffPub_Proofs CoffIdx_Proofs Data_Proofs.
From Coq Require Import Lia.

Definition head_entries (m : module) : list xentry :=
  (if safeseh (m_opt m) then [{| x_name := [64; 102; 101; 97; 116; 46; 48; 48]; x_value := Some (if debug4 (m_opt m) then 16 else 1); x_section := -1; x_type := 0; x_class := 3; x_aux := [] |}] else []) ++
  (if no_file_entry (m_opt m) then [] else [x_file (m_dot_file m)]).
Definition ext_base (m : module) : Z := xsizes (head_entries m) + xsizes (x_secs m 0 (m_secs m)).
Definition pub_base (m : module) : Z := ext_base m + xsizes (x_exts m).
Lemma asked_split m : asked_symbols m = head_entries m ++ x_secs m 0 (m_secs m) ++ x_exts m ++ x_pubs m (asked_pubs m) 0 ++ map (x_alias m) (m_alias m).
Proof. unfold asked_symbols, head_entries. now rewrite <- app_assoc. Qed.
Lemma head_size m : xsizes (head_entries m) = section_start m.
Proof.
  unfold head_entries, section_start. rewrite xsizes_app. f_equal; [destruct (safeseh _); reflexivity|]. destruct (no_file_entry _); [reflexivity|]. cbn [xsizes fold_right]. rewrite xfile_size. lia.
Qed.
Lemma secs_size m : forall ss k, xsizes (x_secs m k ss) = zlen ss + (if no_section_aux (m_opt m) then 0 else zlen ss).
Proof.
  induction ss as [|s ss IH]; intros k; cbn [x_secs xsizes fold_right]. { destruct (no_section_aux _); reflexivity. }
  fold (xsizes (x_secs m (S k) ss)). rewrite IH, zlen_cons. unfold xsize, x_sec. cbn [x_aux]. destruct (no_section_aux _); [change (zlen (@nil xaux)) with 0|change (zlen [?a]) with 1]; lia.
Qed.
Lemma secs_at m : forall ss k j s, nth_error ss j = Some s -> exists a b, x_secs m k ss = a ++ x_sec m (k + j) s :: b /\ xsizes a = Z.of_nat j + (if no_section_aux (m_opt m) then 0 else Z.of_nat j).
Proof.
  induction ss as [|x ss IH]; intros k j s E; destruct j as [|j]; try discriminate; cbn [nth_error x_secs] in *.
  - injection E as ->. exists [], (x_secs m (S k) ss). rewrite Nat.add_0_r. split; [reflexivity|]. cbn. destruct (no_section_aux _); reflexivity.
  - destruct (IH (S k) j s E) as (a & b & Q & V). exists (x_sec m k x :: a), b. rewrite Q, Nat.add_succ_r. split; [reflexivity|]. cbn [xsizes fold_right]. fold (xsizes a). rewrite V.
    unfold xsize, x_sec. cbn [x_aux]. destruct (no_section_aux _); [change (zlen (@nil xaux)) with 0|change (zlen [?a]) with 1]; lia.
Qed.

Lemma NoDup_app_snoc {A} (l : list A) x : NoDup l -> ~ In x l -> NoDup (l ++ [x]).
Proof.
  induction 1 as [|y l Y N IH]; intros H; cbn [app]. { constructor; [intros []|constructor]. }
  constructor. - intros Q. apply in_app_or in Q as [Q|[->|[]]]; [contradiction|]. apply H. now left. - apply IH. intros Q. apply H. now right.
Qed.

(** * the state while the data is written *)
Record inv (m : module) (index : Z) (s : st) (added : list nat) : Prop := {
  v_pub : c_pub s = queue m ++ added;
  v_added : Forall (fun n => private m n = true /\ plain m n) added;
  v_nodup : NoDup (c_pub s);
  v_placed : placed m (c_idx s) (c_pub s) 0 (pub_base m);
  v_index : index = pub_base m + xsizes (x_pubs m (c_pub s) 0);
  v_inc : forall n, c_inc s n = y_included (sym m n) || existsb (Nat.eqb n) (statics m ++ added);
  v_ext : forall n, In n (m_ext m) -> skipped (sym m n) = false -> exists a b, x_exts m = a ++ xext m n :: b /\ c_idx s n = ext_base m + xsizes a }.
Definition settled (m : module) (s : st) (n : nat) : Prop := is_internal (sym m n) && negb (c_inc s n) && negb (y_public (sym m n)) = false.
Definition keeps (m : module) (s s' : st) : Prop := forall n, settled m s n -> settled m s' n /\ c_idx s' n = c_idx s n.
Lemma keeps_refl m s : keeps m s s. Proof. intros n H. split; [assumption|reflexivity]. Qed.
Lemma keeps_trans m a b c : keeps m a b -> keeps m b c -> keeps m a c.
Proof. intros H K n S'. destruct (H n S') as [S1 E1]. destruct (K n S1) as [S2 E2]. split; [assumption|congruence]. Qed.
Definition ref_idx (m : module) (s : st) (r : ref) : Z := match r with RSym n => c_idx s n | RSec k | RVar (Some k) => sec_index m k | _ => 0 end.
Definition ref_settled (m : module) (s : st) (r : ref) : Prop := match r with RSym n => settled m s n | _ => True end.
Lemma keeps_ref m s s' r : keeps m s s' -> ref_settled m s r -> ref_settled m s' r /\ ref_idx m s' r = ref_idx m s r.
Proof. intros K H. destruct r as [|n|k|[k|]]; cbn in *; try (split; [exact Logic.I|reflexivity]). exact (K n H). Qed.

Lemma new_refs_cong m : forall rs a b, (forall n, existsb (Nat.eqb n) a = existsb (Nat.eqb n) b) -> new_refs m rs a = new_refs m rs b.
Proof.
  induction rs as [|r rs IH]; intros a b H; [reflexivity|]. destruct r as [|n|k|k]; cbn [new_refs]; try (now apply IH). rewrite H. destruct (private m n && negb _); [|now apply IH]. f_equal. apply IH.
  intros x. cbn [existsb]. now rewrite H.
Qed.
Lemma new_refs_app m : forall a b seen, new_refs m (a ++ b) seen = new_refs m a seen ++ new_refs m b (seen ++ new_refs m a seen).
Proof.
  induction a as [|r a IH]; intros b seen; cbn [new_refs app]. { now rewrite app_nil_r. }
  destruct r as [|n|k|k]; try apply IH. destruct (private m n && negb (existsb (Nat.eqb n) seen)); [|apply IH]. rewrite IH. cbn [app]. do 2 f_equal. apply new_refs_cong. intros x. cbn [existsb app]. rewrite !existsb_app. cbn [existsb].
  destruct (Nat.eqb x n), (existsb (Nat.eqb x) seen); reflexivity.
Qed.
Definition vmap (fs : list fixup) : list fixup := map (fun f => if is_none f then void f else f) fs.

Lemma reloc_type_spec u f t : f_type f <> FIX_VOID -> 0 <= f_addbytes f < 2 ^ 16 -> reloc_type u f = Some t -> exists v, t = Some v /\ asked_type u f v /\ 0 <= v < 2 ^ 16.
Proof.
  intros N B. unfold reloc_type. destruct (Z.eqb_spec (f_type f) FIX_VOID); [contradiction|]. unfold asked_type. destruct u.
  - destruct (Z.eqb_spec (f_type f) FIX_RELOFF32) as [E|_].
    { intros Q. injection Q as <-. eexists. split; [reflexivity|]. assert (W : wrap 16 (4 + (f_addbytes f - 4)) = 4 + (f_addbytes f - 4)) by (apply wrap_small; lia). rewrite W. split; [left; split; [assumption|reflexivity]|lia]. }
    repeat match goal with |- context [f_type f =? ?c] => destruct (Z.eqb_spec (f_type f) c) as [->|_]; [intros Q; injection Q as <-; eexists; split; [reflexivity|]; split; [right; cbn; tauto|lia]|] end. discriminate.
  - repeat match goal with |- context [f_type f =? ?c] => destruct (Z.eqb_spec (f_type f) c) as [->|_]; [intros Q; injection Q as <-; eexists; split; [reflexivity|]; split; [cbn; tauto|lia]|] end. discriminate.
Qed.
Definition reloc_rec (m : module) (s : st) (u : bool) (f : fixup) (r : list Z) : Prop :=
  exists t, asked_type u f t /\ 0 <= t < 2 ^ 16 /\ r = coff_write_fixup (f_locofs f) (ref_idx m s (f_ref f)) t /\ ref_settled m s (f_ref f).
Lemma reloc_rec_keeps m s s' u f r : keeps m s s' -> reloc_rec m s u f r -> reloc_rec m s' u f r.
Proof. intros K (t & A & B & -> & R). destruct (keeps_ref _ _ _ _ K R) as [R' E]. exists t. rewrite E. repeat split; try assumption; lia. Qed.
Lemma write_fixups_spec m u : module_ok m -> forall fs index s added bs index' s', Forall (fixup_ok m) fs -> inv m index s added ->
  write_fixups m u (vmap fs) index s = Ok (bs, index', s') ->
  inv m index' s' (added ++ new_refs m (map f_ref (filter (fun f => negb (is_none f)) fs)) (statics m ++ added)) /\ keeps m s s' /\
  c_dbg s' = c_dbg s /\ c_lastproc s' = c_lastproc s /\ c_start_files s' = c_start_files s /\
  exists recs, bs = concat recs /\ Forall2 (reloc_rec m s' u) (filter (fun f => negb (is_none f)) fs) recs.
Proof.
  intros W. induction fs as [|f fs IH]; intros index s added bs index' s' Fo In' E; cbn [vmap map write_fixups filter] in E |- *.
  - injection E as <- <- <-. cbn [new_refs map]. rewrite app_nil_r. split; [assumption|]. split; [apply keeps_refl|]. do 3 (split; [reflexivity|]). exists []. split; [reflexivity|constructor].
  - inversion Fo as [|? ? Ff Fr]; subst. fold (vmap fs) in E. destruct (is_none f) eqn:Nn; cbn [negb].
    { cbn [reloc_type void f_type] in E. unfold reloc_type in E. cbn [void f_type Z.eqb FIX_VOID] in E. eapply IH; eassumption. }
    destruct Ff as (_ & Ab & Rf).
    assert (NV : f_type f <> FIX_VOID). { unfold is_none in Nn. destruct (f_ref f) as [|n|k|[k|]]; try discriminate; try apply Rf. contradiction. }
    destruct (reloc_type u f) as [t|] eqn:RT; [|discriminate]. destruct (reloc_type_spec _ _ _ NV Ab RT) as (v & -> & AT & VB).
    destruct (fixup_index m (f_ref f) index s) as [[[i index1] s1]| |] eqn:FI; try discriminate. cbn [bindr] in E.
    destruct (write_fixups m u (vmap fs) index1 s1) as [[[bs1 index2] s2]| |] eqn:WF; try discriminate. cbn [bindr] in E. injection E as <- <- <-.
    cbn [map].
    assert (STEP : inv m index1 s1 (added ++ new_refs m [f_ref f] (statics m ++ added)) /\ keeps m s s1 /\ c_dbg s1 = c_dbg s /\ c_lastproc s1 = c_lastproc s /\ c_start_files s1 = c_start_files s /\
              i = ref_idx m s1 (f_ref f) /\ ref_settled m s1 (f_ref f)).
    { destruct (f_ref f) as [|n|k|[k|]] eqn:R; cbn [fixup_index] in FI; try discriminate.
      2, 3: injection FI as <- <- <-; cbn [new_refs]; rewrite app_nil_r; (split; [assumption|]); (split; [apply keeps_refl|]); do 3 (split; [reflexivity|]); split; [reflexivity|exact Logic.I].
      cbn [new_refs ref_idx ref_settled]. destruct In' as [V1 V2 V3 V4 V5 V6 V7].
      assert (CND : is_internal (sym m n) && negb (c_inc s n) && negb (y_public (sym m n)) = private m n && negb (existsb (Nat.eqb n) (statics m ++ added))).
      { rewrite V6. unfold private. destruct (is_internal _), (y_public _), (y_included _), (existsb _ _); reflexivity. }
      destruct (is_internal (sym m n) && negb (c_inc s n) && negb (y_public (sym m n))) eqn:C.
      - rewrite <- CND. injection FI as <- <- <-. symmetry in CND. apply andb_prop in CND as [Pn Sn]. apply negb_true_iff, existsb_notIn in Sn.
        assert (Pl : plain m n). { unfold plain. destruct (lines_on (m_opt m)) eqn:LO; [|reflexivity]. destruct (y_proc (sym m n)) eqn:YP; [|reflexivity]. exfalso. apply Sn. apply in_or_app. left. now apply (w_procs _ W). }
        assert (NQ : ~ In n (c_pub s)).
        { rewrite V1. unfold queue. rewrite <- app_assoc. intros Q. apply in_app_or in Q as [Q|Q]; [|now apply Sn]. pose proof (proj1 (w_pub _ W)) as WP. rewrite Forall_forall in WP. destruct (WP n Q) as [_ P2].
          unfold private in Pn. destruct (y_public _), (y_included _), (is_internal _); discriminate. }
        replace (lines_on (m_opt m) && y_proc (sym m n)) with false by (symmetry; exact Pl).
        split; [|split].
        + constructor; cbn [c_pub c_idx c_inc].
          * rewrite V1, <- app_assoc. reflexivity.
          * apply Forall_app. split; [assumption|]. constructor; [split; assumption|constructor].
          * apply NoDup_app_snoc; assumption.
          * apply placed_snoc; [assumption| |].
            -- eapply placed_cong; [|exact V4]. intros x X. unfold set. destruct (Nat.eqb_spec x n); [subst; contradiction|reflexivity].
            -- unfold set. rewrite Nat.eqb_refl. exact V5.
          * rewrite x_pubs_snoc, xsizes_app by assumption. cbn [xsizes fold_right]. rewrite V5. unfold xsize. cbn [x_sym x_aux]. change (zlen (@nil xaux)) with 0. lia.
          * intros x. unfold set. rewrite app_assoc, existsb_app, V6. cbn [existsb]. destruct (Nat.eqb_spec x n); rewrite ?orb_true_r, ?orb_false_r; reflexivity.
          * intros e He Se. destruct (V7 e He Se) as (a & b & Q & V). exists a, b. split; [assumption|]. unfold set. destruct (Nat.eqb_spec e n); [|assumption]. subst. exfalso.
            pose proof (w_ext _ W) as WE. rewrite Forall_forall in WE. specialize (WE n He). unfold private, is_internal in Pn. rewrite WE in Pn. discriminate.
        + intros x X. unfold settled in *. cbn [c_inc c_idx]. unfold set. destruct (Nat.eqb_spec x n); [|split; [assumption|reflexivity]]. subst. rewrite X in C. discriminate.
        + cbn [c_dbg c_lastproc c_start_files c_idx]. do 3 (split; [reflexivity|]). unfold set, settled. cbn [c_inc]. unfold set. rewrite Nat.eqb_refl. split; [reflexivity|]. cbn [negb]. rewrite andb_false_r. reflexivity.
      - rewrite <- CND. injection FI as <- <- <-. rewrite app_nil_r. split; [constructor; assumption|]. split; [apply keeps_refl|]. do 3 (split; [reflexivity|]). split; [reflexivity|exact C]. }
    destruct STEP as (I1 & K1 & D1 & D2 & D3 & Ei & Rs).
    apply (IH _ _ _ _ _ _ Fr I1) in WF. destruct WF as (I2 & K2 & G1 & G2 & G3 & recs & -> & FR).
    split.
    { change (f_ref f :: map f_ref ?l) with ([f_ref f] ++ map f_ref l). rewrite new_refs_app, !app_assoc in *. rewrite <- (app_assoc (statics m)) in *. exact I2. }
    split; [eapply keeps_trans; eassumption|]. do 3 (split; [congruence|]).
    exists (coff_write_fixup (f_locofs f) i v :: recs). split; [reflexivity|]. constructor; [|assumption].
    destruct (keeps_ref _ _ _ _ K2 Rs) as [R2 E2]. exists v. split; [assumption|]. split; [lia|]. split; [|assumption]. rewrite E2, Ei. reflexivity.
Qed.
