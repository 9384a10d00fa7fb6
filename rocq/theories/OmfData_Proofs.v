From Coq Require Import Permutation.
From Verif Require Import Base OmfRec_Model OmfRec_Spec OmfRec_Proofs Data_Proofs OmfFix_Model OmfFix_Spec OmfFix_Proofs OmfData_Model OmfData_Spec.

(** * lists and memory *)
Lemma set_nth_length : forall A (l : list A) n x, length (set_nth n x l) = length l.
Proof. induction l as [|y l IH]; intros [|n] x; cbn; auto. Qed.
Lemma nth_set_nth : forall A (d : A) l n k x, (n < length l)%nat -> nth k (set_nth n x l) d = if Nat.eqb k n then x else nth k l d.
Proof.
  intros A d. induction l as [|y l IH]; intros n k x H; cbn in H; [lia|]. destruct n as [|n], k as [|k]; cbn; auto. apply IH. lia.
Qed.
Lemma same_refl : forall m, same m m. Proof. intros m s a. reflexivity. Qed.
Lemma same_sym : forall m1 m2, same m1 m2 -> same m2 m1. Proof. intros m1 m2 H s a. symmetry. apply H. Qed.
Lemma same_trans : forall m1 m2 m3, same m1 m2 -> same m2 m3 -> same m1 m3. Proof. intros m1 m2 m3 H1 H2 s a. rewrite H1. apply H2. Qed.
Lemma put_bytes_same : forall bs m1 m2 s a, same m1 m2 -> same (put_bytes m1 s a bs) (put_bytes m2 s a bs).
Proof.
  induction bs as [|b bs IH]; intros m1 m2 s a H; [exact H|]. cbn [put_bytes]. apply IH. intros s' a'. unfold put. rewrite H. reflexivity.
Qed.
Lemma put_bytes_app : forall xs ys m s a, put_bytes m s a (xs ++ ys) = put_bytes (put_bytes m s a xs) s (a + zlen xs) ys.
Proof.
  induction xs as [|x xs IH]; intros ys m s a; cbn [app put_bytes].
  - rewrite zlen_nil. f_equal. lia.
  - rewrite IH, zlen_cons. f_equal. lia.
Qed.

(** * fixup records *)
Inductive Parses (w : bool) : list Z -> list reloc -> Prop :=
| P_nil : Parses w [] []
| P_cons : forall d1 r d rs, (0 < length d1)%nat -> (forall rest, rd_fixup w (d1 ++ rest) = Some (r, rest)) -> w || negb (wide_place (r_place r)) = true -> Parses w d rs -> Parses w (d1 ++ d) (r :: rs).
Lemma Parses_rds : forall w d rs, Parses w d rs -> forall n, (length d <= n)%nat -> rd_fixups n w d = Some rs.
Proof.
  intros w d rs H. induction H as [|d1 r d rs L H1 W1 H2 IH]; intros n Hn.
  - destruct n; reflexivity.
  - destruct d1 as [|x d1]; [cbn in L; lia|]. destruct n as [|n]; [cbn in Hn; lia|]. rewrite app_length in Hn. cbn [length] in Hn.
    change (rd_fixups (S n) w ((x :: d1) ++ d)) with (bindo (rd_fixup w ((x :: d1) ++ d)) (fun '(r, l) => bindo (rd_fixups n w l) (fun rs => Some (r :: rs)))).
    rewrite H1. cbn [bindo]. rewrite IH by lia. reflexivity.
Qed.
Lemma Parses_rd : forall w d rs, Parses w d rs -> rd_fixupp w d = Some rs.
Proof.
  intros w d rs H. unfold rd_fixupp. rewrite (Parses_rds w d rs H _ (Nat.le_refl _)).
  assert (w || forallb (fun r => negb (wide_place (r_place r))) rs = true) as ->; [|reflexivity].
  induction H as [|d1 r d rs L H1 W1 H2 IH]; [apply orb_true_r|]. destruct w; [reflexivity|]. cbn [orb forallb] in *. rewrite W1. exact IH.
Qed.
Lemma Parses_snoc : forall w d rs, Parses w d rs -> forall d1 r, (0 < length d1)%nat -> (forall rest, rd_fixup w (d1 ++ rest) = Some (r, rest)) -> w || negb (wide_place (r_place r)) = true ->
  Parses w (d ++ d1) (rs ++ [r]).
Proof.
  intros w d rs H. induction H as [|d0 r0 d rs L0 H0 W0 H2 IH]; intros d1 r L H1 W1.
  - cbn [app]. rewrite <- (app_nil_r d1). apply P_cons; [exact L|exact H1|exact W1|apply P_nil].
  - rewrite <- app_assoc. cbn [app]. apply P_cons; [exact L0|exact H0|exact W0|]. apply IH; assumption.
Qed.

Lemma asked_locofs : forall s fx l, asked s (set_locofs fx l) =
  match asked 0 fx with Some r => Some {| r_at := l - s; r_place := r_place r; r_self := r_self r; r_frame := r_frame r; r_target := r_target r; r_disp := r_disp r |} | None => None end.
Proof.
  intros s fx l. unfold asked. change (asked_place (set_locofs fx l)) with (asked_place fx). change (asked_target (set_locofs fx l)) with (asked_target fx).
  destruct (asked_place fx) as [[p q]|]; [|reflexivity]. destruct (asked_target fx) as [t|]; reflexivity.
Qed.
Lemma asked_shift : forall s fx, option_map (shift s) (asked s fx) = asked 0 fx.
Proof.
  intros s fx. unfold asked. destruct (asked_place fx) as [[p q]|]; [|reflexivity]. destruct (asked_target fx) as [t|]; [|reflexivity].
  cbn [option_map]. unfold shift. cbn. f_equal. f_equal. lia.
Qed.
Definition sound (fx : fixup) : Prop := fixup_ok fx /\ match asked 0 fx with Some r => clash (r_frame r) (r_target r) = false | None => True end.
Definition pending (start cur : Z) (fx : fixup) : Prop := sound fx /\ start <= f_locofs fx < cur.
Lemma pending_parse : forall start fx w, sound fx -> 0 <= f_locofs fx - start < 1024 ->
  match asked start fx with
  | Some r => (0 < length (OmfFixGenFix fx start w))%nat /\ forall rest, rd_fixup w (OmfFixGenFix fx start w ++ rest) = Some (r, rest)
  | None => OmfFixGenFix fx start w = []
  end.
Proof.
  intros start fx w [OK CL] R. pose proof (fixup_size fx start w OK) as (_ & _ & SZ).
  destruct (asked start fx) as [r|] eqn:E.
  - split; [specialize (SZ ltac:(discriminate)); unfold zlen in SZ; lia|]. intros rest. apply fixup_read; auto.
    rewrite <- (asked_shift start), E in CL. exact CL.
  - apply fixup_none; assumption.
Qed.
Lemma asked_wide : forall start fx w r, asked start fx = Some r -> Bool.eqb (wide_fixup fx) w = true -> w || negb (wide_place (r_place r)) = true.
Proof.
  intros start fx w r E W. apply eqb_prop in W. subst w. unfold asked in E. destruct (asked_place fx) as [[p q]|] eqn:EP; [|discriminate E]. destruct (asked_target fx); [|discriminate E]. injection E as <-. cbn [r_place].
  unfold asked_place in EP. unfold wide_fixup, FIX_RELOFF32, FIX_OFF32, FIX_PTR32. destruct (f_type fx) as [|[[[[]|[]|]|[[]|[]|]|]|[[[]|[]|]|[[]|[]|]|]|]|]; destruct (f_loader_resolved fx); try discriminate EP; injection EP as <- <-; reflexivity.
Qed.
Definition rel_list (s o : Z) (rs : list reloc) : list (Z * reloc) := map (fun r => (s, shift o r)) rs.
Lemma loop_load : forall s w start fl data rs l,
  Forall (fun fx => sound fx /\ 0 <= f_locofs fx - start < 1024) fl -> Parses w data rs -> zlen data <= 1016 -> Forall is_byte data ->
  let out := fixup_loop w start fl data in
  load (map meaning out) (s, start) l =
    Some {| l_mem := l_mem l; l_relocs := l_relocs l ++ rel_list s start rs ++ flat_map asked_of (map (pair s) (filter (fun fx => Bool.eqb (wide_fixup fx) w) fl)) |} /\
  Forall (fun r => rec_ok r /\ zlen (r_data r) <= 1024) out.
Proof.
  intros s w start. induction fl as [|fx fl IH]; intros data rs l F P Z B out; subst out.
  - cbn [fixup_loop filter map flat_map]. rewrite app_nil_r. destruct (Z.eqb_spec (zlen data) 0) as [E|E].
    + assert (data = []) as -> by (destruct data; [reflexivity|rewrite zlen_cons in E; pose proof (zlen_nonneg data); lia]).
      inversion P as [|d1 r d0 rs0 L _ _ _ E1]; subst.
      * cbn. rewrite app_nil_r. destruct l. split; [reflexivity|apply Forall_nil].
      * destruct d1; [cbn in L; lia|discriminate].
    + split.
      * cbn [map meaning fixupp r_d r_is32 r_data r_cmd load CMD_FIXUPP]. destruct w; cbn [Z.eqb Pos.eqb];
          rewrite (Parses_rd _ data rs P); reflexivity.
      * apply Forall_cons; [|apply Forall_nil]. split; [|cbn [r_data fixupp]; lia]. unfold rec_ok. cbn [r_is32 r_data r_d r_cmd fixupp].
        split; [destruct w; [right|left]; reflexivity|]. split; [exact B|]. right. cbn. auto.
  - inversion F as [|? ? [FS FR] F2]; subst. cbn [fixup_loop filter].
    destruct (Bool.eqb (wide_fixup fx) w) eqn:EW; cbn [negb]; [|apply (IH data rs l F2 P Z B)].
    pose proof (pending_parse start fx w FS FR) as PP. pose proof (fixup_size fx start w (proj1 FS)) as (SZ & SB & _).
    assert (rel_list s start (match asked start fx with Some r => [r] | None => [] end) = asked_of (s, fx)) as RL.
    { unfold asked_of. cbn [fst snd]. rewrite <- (asked_shift start fx). destruct (asked start fx); reflexivity. }
    cbn [map flat_map]. rewrite <- RL. clear RL.
    assert (forall d0 rs0, Parses w d0 rs0 -> Parses w (d0 ++ OmfFixGenFix fx start w) (rs0 ++ match asked start fx with Some r => [r] | None => [] end)) as PS.
    { intros d0 rs0 P0. destruct (asked start fx) as [r|] eqn:EA; [apply Parses_snoc; [exact P0|apply PP|apply PP|]; exact (asked_wide start fx w r EA EW)|]. rewrite PP, !app_nil_r. exact P0. }
    destruct (zlen data >? 1020 - FIX_GEN_MAX) eqn:EF.
    + specialize (PS [] [] (P_nil w)). cbn [app] in PS.
      destruct (IH _ _ {| l_mem := l_mem l; l_relocs := l_relocs l ++ rel_list s start rs |} F2 PS ltac:(lia) SB) as [IH1 IH2]. cbv zeta in IH1, IH2.
      split.
      * cbn [map]. change (meaning (fixupp w data)) with (V_plain 0x9c ((if w then 1 else 0) =? 1) data). cbn [load].
        replace ((if w then 1 else 0) =? 1) with w by (destruct w; reflexivity). rewrite (Parses_rd _ data rs P).
        change (map (fun r => (fst (s, start), shift (snd (s, start)) r)) rs) with (rel_list s start rs). rewrite IH1. cbn [l_mem l_relocs].
        rewrite <- !app_assoc. reflexivity.
      * apply Forall_cons; [|exact IH2]. split; [|cbn [r_data fixupp]; lia]. unfold rec_ok. cbn [r_is32 r_data r_d r_cmd fixupp].
        split; [destruct w; [right|left]; reflexivity|]. split; [exact B|]. right. cbn. auto.
    + destruct (IH _ _ l F2 (PS data rs P)) as [IH1 IH2]; [rewrite zlen_app; unfold FIX_GEN_MAX in EF; lia|apply Forall_app; auto|].
      cbv zeta in IH1, IH2. split; [|exact IH2]. rewrite IH1. f_equal. f_equal. unfold rel_list. rewrite map_app, <- !app_assoc. reflexivity.
Qed.

(** * loading appended records *)
Lemma load_app : forall vs1 last l l1 c s o d vs2 w, load vs1 last l = Some l1 ->
  load (vs1 ++ V_ledata c w s o d :: vs2) last l = load (V_ledata c w s o d :: vs2) (0, 0) l1.
Proof.
  induction vs1 as [|v vs1 IH]; intros last l l1 c s o d vs2 w H.
  - cbn [load] in H. injection H as <-. cbn [app]. cbn [load]. reflexivity.
  - cbn [app]. destruct v as [cmd is32 dat| | | |cmd is32 si oi dat| | |]; cbn [load] in H; try discriminate.
    + cbn [load]. repeat (match goal with H : context [match ?x with _ => _ end] |- _ => match type of x with Z => destruct x | positive => destruct x end end; try discriminate).
      destruct (rd_fixupp is32 dat); [|discriminate]. apply IH. exact H.
    + cbn [load]. repeat (match goal with H : context [match ?x with _ => _ end] |- _ => match type of x with Z => destruct x | positive => destruct x end end; try discriminate).
      apply IH. exact H.
Qed.
