(** C17: the section headers. *)
From Verif Require Import Base Coff_Model Coff_Spec CoffStr_Proofs CoffSym_Proofs CoffEnt_Proofs Record_Proofs Data_Proofs.
From Coq Require Import Lia.

(** * names *)
Lemma strip_spec : forall src name, match strip src name with Some r => name = src ++ r | None => forall r, name <> src ++ r end.
Proof.
  induction src as [|x src IH]; intros name; [reflexivity|]. destruct name as [|y name]; cbn [strip]. { intros r Q. discriminate. }
  destruct (Z.eqb_spec x y) as [->|N].
  - specialize (IH name). destruct (strip src name) as [r|]; [cbn; congruence|]. intros r Q. injection Q as Q. now apply (IH r).
  - intros r Q. injection Q as Q _. congruence.
Qed.
Definition hit (src : list Z) (grp : bool) (name : list Z) : option (list Z) :=
  match strip src name with Some [] => Some [] | Some (c :: r) => if (c =? 36) && grp then Some (c :: r) else None | None => None end.
Lemma hit_spec src grp name : match hit src grp name with
  | Some r => name = src ++ r /\ (r = [] \/ grp = true /\ exists q, r = 36 :: q)
  | None => forall r, name = src ++ r -> r <> [] /\ (grp = true -> forall q, r <> 36 :: q)
  end.
Proof.
  unfold hit. pose proof (strip_spec src name) as H. destruct (strip src name) as [[|c r]|].
  - split; [assumption|now left].
  - destruct (Z.eqb_spec c 36) as [->|N]; destruct grp; cbn [andb].
    + split; [assumption|]. right. split; [reflexivity|]. now exists r.
    + intros r' E. rewrite H in E. apply app_inv_head in E. subst. split; [discriminate|discriminate].
    + intros r' E. rewrite H in E. apply app_inv_head in E. subst. split; [discriminate|]. intros _ q Q. congruence.
    + intros r' E. rewrite H in E. apply app_inv_head in E. subst. split; [discriminate|discriminate].
  - intros r E. now apply H in E.
Qed.
Definition found (dj : bool) (w : Z) (dst : list Z) (st : Z) (r : list Z) : list Z * Z :=
  (match r with [] => if dj && (st =? SEGTYPE_DATA) && (zlen dst =? 6) then dot_const else dst | _ => dst ++ r end, if (st =? SEGTYPE_BSS) && negb (w =? 0) then SEGTYPE_UNDEF else st).
Lemma convert_cons dj w src grp dst st t name : convert dj w ((src, grp, dst, st) :: t) name =
  match hit src grp name with Some r => found dj w dst st r | None => convert dj w t name end.
Proof. unfold hit. cbn [convert]. destruct (strip src name) as [[|c r]|]; [reflexivity| |reflexivity]. destruct ((c =? 36) && grp); reflexivity. Qed.
Lemma convert_spec dj w name : new_name dj name (fst (convert dj w cst name)) /\ (snd (convert dj w cst name) = SEGTYPE_BSS <-> (name = [95; 66; 83; 83] /\ w = 0)).
Proof.
  unfold cst. rewrite !convert_cons. cbn [convert].
  pose proof (hit_spec [95; 84; 69; 88; 84] true name) as H1. destruct (hit [95; 84; 69; 88; 84] true name) as [r|].
  { destruct H1 as [-> R]. unfold found. cbn [fst snd]. split.
    - left. exists [95; 84; 69; 88; 84], [46; 116; 101; 120; 116], r. split; [now left|]. split; [reflexivity|]. split; [destruct R as [->|[_ Q]]; [now left|now right]|].
      change (SEGTYPE_CODE =? SEGTYPE_DATA) with false. change (zlen [46; 116; 101; 120; 116] =? 6) with false. rewrite !andb_false_r. cbn [andb]. destruct r; [now rewrite app_nil_r|reflexivity].
    - split; [discriminate|]. intros [Q _]. discriminate. }
  pose proof (hit_spec [95; 68; 65; 84; 65] true name) as H2. destruct (hit [95; 68; 65; 84; 65] true name) as [r|].
  { destruct H2 as [-> R]. unfold found. cbn [fst snd]. split.
    - left. exists [95; 68; 65; 84; 65], [46; 100; 97; 116; 97], r. split; [right; now left|]. split; [reflexivity|]. split; [destruct R as [->|[_ Q]]; [now left|now right]|].
      change (zlen [46; 100; 97; 116; 97] =? 6) with false. rewrite !andb_false_r. destruct r; [now rewrite app_nil_r|reflexivity].
    - split; [discriminate|]. intros [Q _]. discriminate. }
  pose proof (hit_spec [67; 79; 78; 83; 84] true name) as H3. destruct (hit [67; 79; 78; 83; 84] true name) as [r|].
  { destruct H3 as [-> R]. unfold found. cbn [fst snd]. split.
    - left. exists [67; 79; 78; 83; 84], [46; 114; 100; 97; 116; 97], r. split; [right; right; now left|]. split; [reflexivity|]. split; [destruct R as [->|[_ Q]]; [now left|now right]|].
      change (zlen [46; 114; 100; 97; 116; 97] =? 6) with true. change (SEGTYPE_DATA =? SEGTYPE_DATA) with true. rewrite !andb_true_r. destruct r.
      + rewrite app_nil_r, andb_true_r. reflexivity.
      + rewrite andb_false_r. reflexivity.
    - split; [discriminate|]. intros [Q _]. discriminate. }
  pose proof (hit_spec [95; 66; 83; 83] false name) as H4. destruct (hit [95; 66; 83; 83] false name) as [r|].
  { destruct H4 as [-> [->|[Q _]]]; [|discriminate]. unfold found. cbn [fst snd app]. split.
    - right. left. split; [reflexivity|]. change (SEGTYPE_BSS =? SEGTYPE_DATA) with false. rewrite andb_false_r. reflexivity.
    - change (SEGTYPE_BSS =? SEGTYPE_BSS) with true. cbn [andb]. destruct (Z.eqb_spec w 0) as [->|N]; cbn [negb]; split; try tauto; discriminate || (intros [_ Q]; contradiction). }
  cbn [fst snd]. split.
  - right. right. split; [reflexivity|]. split. { intros ->. destruct (H4 []) as [Q _]; [reflexivity|congruence]. }
    intros src r [<-|[<-|[<-|[]]]] ->; [destruct (H1 r)|destruct (H2 r)|destruct (H3 r)]; auto.
  - split; [discriminate|]. intros [-> _]. destruct (H4 []) as [Q _]; [reflexivity|congruence].
Qed.
Lemma bss_name o s : (snd (section_name o s) =? SEGTYPE_BSS) = is_bss_name s.
Proof.
  unfold section_name, is_bss_name. destruct (s_alias s) as [a|]; [reflexivity|]. destruct (convert_spec (djgpp o) (s_written s) (s_name s)) as [_ H].
  destruct (Z.eqb_spec (snd (convert (djgpp o) (s_written s) cst (s_name s))) SEGTYPE_BSS) as [E|N].
  - apply H in E as [-> ->]. reflexivity.
  - assert (N' : ~ (s_name s = [95; 66; 83; 83] /\ s_written s = 0)) by tauto. clear H N.
    destruct (s_name s) as [|a [|b [|c [|d [|e r]]]]] eqn:E; try reflexivity;
    repeat match goal with |- context [match ?z with Z0 => _ | Zpos _ => _ | Zneg _ => _ end] => is_var z; destruct z; try reflexivity end;
    repeat match goal with |- context [match ?p with xI _ => _ | xO _ => _ | xH => _ end] => is_var p; destruct p; try reflexivity end.
    symmetry. apply Z.eqb_neq. intros Q. apply N'. split; [reflexivity|assumption].
Qed.

(** * characteristics *)
Lemma characteristics_spec o m s fo c size ptr t : section_wf m s -> characteristics s (snd (section_name o s)) fo = (c, size, ptr, t) ->
  size = raw_size s /\ ptr = (if uninit s || (s_max s =? 0) then 0 else fo) /\ (s_stack s && (s_written s =? 0) || (t =? SEGTYPE_BSS)) = uninit s.
Proof.
  intros W. unfold characteristics. cbn zeta. rewrite bss_name. pose proof (w_skip _ _ W) as Sk. unfold raw_size, bss, uninit in *.
  destruct (s_info s); cbn [negb andb orb] in *.
  { intros E. injection E as <- <- <- <-. split; [reflexivity|]. split; [reflexivity|]. destruct (s_stack s), (Z.eqb_spec (s_written s) 0), (Z.eqb_spec (s_type s) SEGTYPE_BSS); cbn; try reflexivity; exfalso; assert (false = true) by (apply Sk; auto); discriminate. }
  destruct (s_type s =? SEGTYPE_CODE); cbn [negb andb orb] in *.
  { intros E. injection E as <- <- <- <-. split; [reflexivity|]. split; [reflexivity|]. destruct (s_stack s), (Z.eqb_spec (s_written s) 0), (Z.eqb_spec (s_type s) SEGTYPE_BSS); cbn; try reflexivity; exfalso; assert (false = true) by (apply Sk; auto); discriminate. }
  destruct (s_readonly s); cbn [negb andb orb] in *.
  { intros E. injection E as <- <- <- <-. split; [reflexivity|]. split; [reflexivity|]. destruct (s_stack s), (Z.eqb_spec (s_written s) 0), (Z.eqb_spec (s_type s) SEGTYPE_BSS); cbn; try reflexivity; exfalso; assert (false = true) by (apply Sk; auto); discriminate. }
  destruct (s_const s); cbn [negb andb orb] in *.
  { intros E. injection E as <- <- <- <-. split; [reflexivity|]. split; [reflexivity|]. destruct (s_stack s), (Z.eqb_spec (s_written s) 0), (Z.eqb_spec (s_type s) SEGTYPE_BSS); cbn; try reflexivity; exfalso; assert (false = true) by (apply Sk; auto); discriminate. }
  destruct (Z.eqb_spec (s_type s) SEGTYPE_BSS) as [Eb|Nb]; cbn [orb andb] in *.
  { intros E. injection E as <- <- <- <-. split; [reflexivity|]. split; [reflexivity|]. change (SEGTYPE_BSS =? SEGTYPE_BSS) with true. now rewrite orb_true_r. }
  destruct (is_bss_name s); cbn [orb andb] in *.
  { intros E. injection E as <- <- <- <-. split; [reflexivity|]. split; [reflexivity|]. change (SEGTYPE_BSS =? SEGTYPE_BSS) with true. now rewrite orb_true_r. }
  destruct (s_stack s && (s_written s =? 0)) eqn:St; cbn [orb andb negb] in *; intros E; injection E as <- <- <- <-.
  - split; [reflexivity|]. split; reflexivity.
  - split; [reflexivity|]. split; [reflexivity|]. destruct (Z.eqb_spec (s_type s) SEGTYPE_BSS); [contradiction|reflexivity].
Qed.

(** * flags *)
Definition flags0 (s : section) : Z :=
  if s_info s then 0x200 + (if s_drectve s then 0x800 else 0x40)
  else (if s_align s =? MAX_SEGALIGNMENT then 0 else (s_align s + 1) * 2 ^ 20) + (if s_comdat s =? 0 then 0 else 0x1000) +
       (if s_type s =? SEGTYPE_CODE then 0x60000020 else if s_readonly s || s_const s then 0x40000040 else if uninit s then 0xc0000080 else 0xc0000040).
Lemma flags_sum : Forall (fun a : Z => Forall (fun k : bool => Forall (fun w : Z =>
    let c := Z.lor (if k then a else Z.lor a 0x1000) w in c = a + (if k then 0 else 0x1000) + w /\ 0 <= c < 2 ^ 32 /\ c mod 2 ^ 25 < 2 ^ 24)
    [0x60000020; 0x40000040; 0xc0000080; 0xc0000040]) [true; false]) (map (fun j => j * 2 ^ 20) [0; 1; 2; 3; 4; 5; 6; 7; 8; 9; 10; 11; 12; 13; 14]).
Proof.
  cbn [map]. repeat (apply Forall_cons; [|try apply Forall_nil]); cbv zeta; (split; [vm_compute; reflexivity|split; [split; vm_compute; [discriminate|reflexivity]|vm_compute; reflexivity]]).
Qed.
Lemma flags0_spec o m s fo c size ptr t : section_wf m s -> characteristics s (snd (section_name o s)) fo = (c, size, ptr, t) ->
  c = flags0 s /\ 0 <= c < 2 ^ 32 /\ c mod 2 ^ 25 < 2 ^ 24.
Proof.
  intros W. destruct (w_flags _ _ W) as (Al & _). unfold characteristics. cbn zeta. rewrite bss_name. unfold flags0, uninit.
  destruct (s_info s). { destruct (s_drectve s); intros E; injection E as <- _ _ _; vm_compute; repeat split; discriminate. }
  set (a := if negb (s_align s =? MAX_SEGALIGNMENT) then wrap 32 (Z.shiftl (s_align s + 1) 20) else 0).
  assert (A : a = (if s_align s =? MAX_SEGALIGNMENT then 0 else (s_align s + 1) * 2 ^ 20) /\ In a (map (fun j => j * 2 ^ 20) [0; 1; 2; 3; 4; 5; 6; 7; 8; 9; 10; 11; 12; 13; 14])).
  { assert (L : In (s_align s) [0; 1; 2; 3; 4; 5; 6; 7; 8; 9; 10; 11; 12; 13; 255]).
    { cbn [In]. destruct Al as [R| ->]; [lia|]. unfold MAX_SEGALIGNMENT. lia. }
    subst a. cbn [In] in L. decompose [or] L; try contradiction; match goal with H : _ = s_align s |- _ => rewrite <- H end; vm_compute; tauto. }
  destruct A as [<- A]. clearbody a. pose proof (proj1 (Forall_forall _ _) flags_sum a A) as F. cbv beta zeta in F.
  assert (G : forall w, In w [0x60000020; 0x40000040; 0xc0000080; 0xc0000040] ->
    let c := Z.lor (if negb (s_comdat s =? 0) then Z.lor a 0x1000 else a) w in c = a + (if s_comdat s =? 0 then 0 else 0x1000) + w /\ 0 <= c < 2 ^ 32 /\ c mod 2 ^ 25 < 2 ^ 24).
  { intros w I'. destruct (s_comdat s =? 0); cbn [negb].
    - exact (proj1 (Forall_forall _ _) (Forall_inv F) w I').
    - exact (proj1 (Forall_forall _ _) (Forall_inv (Forall_inv_tail F)) w I'). }
  clear F. cbn zeta in G. intros E.
  destruct (s_type s =? SEGTYPE_CODE); cbn [negb andb] in E |- *. { injection E as <- _ _ _. apply G. cbn [In]. lia. }
  destruct (s_readonly s); cbn [negb andb orb] in E |- *. { injection E as <- _ _ _. apply G. cbn [In]. lia. }
  destruct (s_const s); cbn [negb andb orb] in E |- *. { injection E as <- _ _ _. apply G. cbn [In]. lia. }
  destruct ((s_type s =? SEGTYPE_BSS) || is_bss_name s); cbn [negb andb orb] in E |- *. { injection E as <- _ _ _. apply G. cbn [In]. lia. }
  destruct (s_stack s && (s_written s =? 0)); cbn [negb andb orb] in E |- *; injection E as <- _ _ _; apply G; cbn [In]; lia.
Qed.
Lemma char_bits c : 0 <= c < 256 -> wrap 32 (Z.shiftl (Z.land c 0xfe) 24) = c / 2 * 2 ^ 25.
Proof.
  intros R. assert (F : forallb (fun c => wrap 32 (Z.shiftl (Z.land c 0xfe) 24) =? c / 2 * 2 ^ 25) (map Z.of_nat (seq 0 256)) = true) by (vm_compute; reflexivity).
  rewrite forallb_forall in F. apply Z.eqb_eq, F. apply in_map_iff. exists (Z.to_nat c). split; [lia|]. apply in_seq. lia.
Qed.
Lemma land_pow2 c n : 0 <= n -> Z.testbit c n = false -> Z.land c (2 ^ n) = 0.
Proof.
  intros R B. apply Z.bits_inj'. intros i Hi. rewrite Z.land_spec, Z.bits_0, Z.pow2_bits_eqb by assumption. destruct (Z.eqb_spec n i) as [->|]; [now rewrite B|apply andb_false_r].
Qed.
Lemma low_bit c : c mod 2 ^ 25 < 2 ^ 24 -> Z.testbit c 24 = false.
Proof.
  intros R. destruct (Z.testbit c 24) eqn:B; [|reflexivity]. exfalso. pose proof (Z.mod_pow2_bits_low c 25 24 eq_refl) as H. rewrite B in H.
  pose proof (Z.testbit_true (c mod 2 ^ 25) 24 ltac:(lia)) as [Q _]. specialize (Q H). rewrite Z.div_small in Q; [discriminate|]. pose proof (Z.mod_pos_bound c (2 ^ 25) eq_refl). lia.
Qed.
Lemma flags_spec o m s fo c size ptr t : section_wf m s -> characteristics s (snd (section_name o s)) fo = (c, size, ptr, t) ->
  (if num_relocs s <=? 0xffff then manual s c else Z.lor (manual s c) 0x01000000) = flags s /\ 0 <= flags s < 2 ^ 32 /\ Z.testbit (flags s) 24 = (num_relocs s >? 0xffff).
Proof.
  intros W E. destruct (flags0_spec _ _ _ _ _ _ _ _ W E) as (-> & R & L). destruct (w_flags _ _ W) as (_ & _ & _ & Ch & _).
  set (g := if s_char s =? 0 then flags0 s else flags0 s mod 2 ^ 25 + s_char s / 2 * 2 ^ 25).
  assert (M : manual s (flags0 s) = g).
  { unfold manual, g. destruct (s_char s =? 0); [reflexivity|]. rewrite char_bits by assumption. change 0x1ffffff with (Z.ones 25). rewrite Z.land_ones by lia.
    rewrite Z.lor_comm, (lor_disjoint _ _ 25) by (try lia; apply Z.mod_pos_bound; reflexivity). apply Z.add_comm. }
  assert (G : 0 <= g < 2 ^ 32 /\ g mod 2 ^ 25 < 2 ^ 24).
  { unfold g. destruct (s_char s =? 0); [now split|]. pose proof (Z.mod_pos_bound (flags0 s) (2 ^ 25) eq_refl). assert (0 <= s_char s / 2 < 128) by (split; [apply Z.div_pos; lia|apply Z.div_lt_upper_bound; lia]). split; [lia|].
    rewrite Z_mod_plus_full, Zmod_mod. assumption. }
  destruct G as [G1 G2]. pose proof (low_bit _ G2) as B. unfold flags. fold (flags0 s). fold g. rewrite M, Z.gtb_ltb.
  destruct (Z.leb_spec (num_relocs s) 65535) as [Q|Q]; destruct (Z.ltb_spec 65535 (num_relocs s)) as [Q'|Q']; try lia.
  - rewrite Z.add_0_r. repeat split; try reflexivity; try lia; assumption.
  - change 16777216 with (2 ^ 24). assert (A : g + 2 ^ 24 = Z.lor g (2 ^ 24)).
    { pose proof (land_pow2 g 24 ltac:(lia) B) as N. rewrite Z.add_nocarry_lxor by exact N. apply Z.lxor_lor. exact N. }
    rewrite <- A. split; [reflexivity|]. split.
    + pose proof (Z.div_mod g (2 ^ 25) ltac:(lia)). assert (g / 2 ^ 25 < 128) by (apply Z.div_lt_upper_bound; lia). lia.
    + rewrite A, Z.lor_spec, B. reflexivity.
Qed.
