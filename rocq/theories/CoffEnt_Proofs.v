(** C16: the entries of the symbol table. *)
From Verif Require Import Base Crc_Model Crc_Spec Crc_Proofs Coff_Model Coff_Spec CoffStr_Proofs CoffSym_Proofs Data_Proofs.
From Coq Require Import Lia.

Definition auxes (m : module) (f : list Z) (T : table) (x : xentry) (ie : Z * entry) : Prop := Forall2 (aux_ok m f T (fst ie)) (x_aux x) (e_aux (snd ie)).
Lemma entries_ok m f T i xs t : matches i xs t -> Forall2 (auxes m f T) xs t -> Forall2 (entry_ok m f T) xs t.
Proof.
  induction 1 as [i|i x e xs t B M IH]; intros A; inversion A; subst; constructor; [|now apply IH].
  unfold entry_ok. destruct B as (B1 & B2 & B3 & B4 & B5 & _). do 5 (split; [assumption|]). assumption.
Qed.
(** index and value of .file entries *)
Definition files_of (t : table) : list (Z * Z) := map (fun ie => (fst ie, e_value (snd ie))) (filter is_file t).
Lemma files_of_app a b : files_of (a ++ b) = files_of a ++ files_of b.
Proof. unfold files_of. now rewrite filter_app, map_app. Qed.
(** a part of the table: its records, what they are read as, and the auxiliary records *)
Definition part (m : module) (f : list Z) (Hyp : table -> Prop) (l : longnames) (i : Z) (xs : list xentry) (recs : list (list Z)) (F : list (Z * Z)) (l' : longnames) : Prop :=
  ln_ok l' /\ ext l l' /\ zlen recs = xsizes xs /\
  forall L, ext l' L -> final L -> exists t, parsed L i recs t /\ matches i xs t /\ files_of t = F /\ forall T, Hyp T -> Forall2 (auxes m f T) xs t.
Lemma part_nil m f H l i : ln_ok l -> part m f H l i [] [] [] l.
Proof. intros K. split; [assumption|]. split; [apply ext_refl|]. split; [reflexivity|]. intros L _ _. exists []. split; [constructor|]. split; [constructor|]. split; [reflexivity|]. intros T _. constructor. Qed.
Lemma Forall2_app' {A B} (R : A -> B -> Prop) a b c d : Forall2 R a b -> Forall2 R c d -> Forall2 R (a ++ c) (b ++ d).
Proof. induction 1; [auto|]. intros. cbn. constructor; auto. Qed.
Lemma part_app m f H l i a ra Fa l1 b rb Fb l2 j : part m f H l i a ra Fa l1 -> part m f H l1 j b rb Fb l2 -> j = i + xsizes a -> part m f H l i (a ++ b) (ra ++ rb) (Fa ++ Fb) l2.
Proof.
  intros (K1 & E1 & Z1 & P1) (K2 & E2 & Z2 & P2) ->. split; [assumption|]. split; [eapply ext_trans; eassumption|]. split; [rewrite zlen_app, xsizes_app; lia|]. intros L X F.
  destruct (P1 L (ext_trans _ _ _ E2 X) F) as (t1 & A1 & A2 & A4 & A3). destruct (P2 L X F) as (t2 & B1 & B2 & B4 & B3). exists (t1 ++ t2). split; [|split; [|split]].
  - eapply parsed_app; [eassumption..|]. lia.
  - eapply matches_app; [eassumption..|reflexivity].
  - rewrite files_of_app. congruence.
  - intros T HT. apply Forall2_app'; auto.
Qed.
(** one symbol with its auxiliary records *)
Lemma part_one m f (H : table -> Prop) l i name nm l1 v sec ty cl aux x :
  ln_ok l -> name_ok name -> alloc_name l name = (nm, l1) -> Forall (fun a => length a = 18%nat) aux -> zlen aux < 256 ->
  basic x (mk_entry name v sec ty cl aux) -> (forall T, H T -> Forall2 (aux_ok m f T i) (x_aux x) aux) ->
  part m f H l i [x] (coff_write_symbol nm v sec ty cl (zlen aux) :: aux) (if cl mod 2 ^ 8 =? 103 then [(i, v mod 2 ^ 32)] else []) l1.
Proof.
  intros K N A A18 A256 B AX. destruct (alloc_named _ _ _ _ K N A) as (K1 & E1 & Nm). split; [assumption|]. split; [assumption|]. split.
  { cbn [xsizes fold_right]. unfold xsize. rewrite zlen_cons. destruct B as (_ & _ & _ & _ & _ & B). cbn [mk_entry e_aux] in B. unfold zlen. rewrite <- B. lia. }
  intros L X F. exists [(i, mk_entry name v sec ty cl aux)]. split; [|split; [|split]].
  - rewrite <- (app_nil_r aux) at 2. constructor; [now apply Nm|assumption|assumption|constructor].
  - constructor; [assumption|constructor].
  - unfold files_of, is_file. cbn [filter snd mk_entry e_class]. destruct (_ =? 103); reflexivity.
  - intros T HT. constructor; [|constructor]. unfold auxes. cbn [fst snd mk_entry e_aux]. now apply AX.
Qed.
Lemma part_short m f (H : table -> Prop) l i name v sec ty cl aux x :
  ln_ok l -> name_ok name -> zlen name <= 8 -> Forall (fun a => length a = 18%nat) aux -> zlen aux < 256 ->
  basic x (mk_entry name v sec ty cl aux) -> (forall T, H T -> Forall2 (aux_ok m f T i) (x_aux x) aux) ->
  part m f H l i [x] (coff_write_symbol (inl name) v sec ty cl (zlen aux) :: aux) (if cl mod 2 ^ 8 =? 103 then [(i, v mod 2 ^ 32)] else []) l.
Proof.
  intros K N Z. assert (A : alloc_name l name = (inl name, l)). { unfold alloc_name. destruct (Z.gtb_spec (zlen name) 8); [lia|reflexivity]. }
  intros. eapply part_one; eassumption.
Qed.
Lemma part_weaken m f (H H' : table -> Prop) l i xs recs F l' : (forall T, H' T -> H T) -> part m f H l i xs recs F l' -> part m f H' l i xs recs F l'.
Proof.
  intros W (K & E & Z & P). split; [assumption|]. split; [assumption|]. split; [assumption|]. intros L X Fn. destruct (P L X Fn) as (t & A & B & D & C). exists t.
  split; [assumption|]. split; [assumption|]. split; [assumption|]. intros T HT. auto.
Qed.

(** * .file *)
Lemma pieces_spec : forall fuel name, (length name <= fuel)%nat ->
  file_aux (Z.to_nat (aux_entries name)) name = pieces fuel name /\ zlen (pieces fuel name) = aux_entries name /\ Forall (fun a => length a = 18%nat) (pieces fuel name).
Proof.
  induction fuel as [|fuel IH]; intros name L.
  - destruct name; [|cbn in L; lia]. repeat split; constructor.
  - cbn [pieces]. destruct name as [|c r] eqn:E; [repeat split; constructor|]. rewrite <- E in *. assert (P : 0 < zlen name) by (subst; unfold zlen; cbn [length]; lia). clear E c r.
    destruct (Z.ltb_spec (zlen name) 18) as [Lt|Ge].
    + assert (Q : aux_entries name = 1). { unfold aux_entries. rewrite Z.div_small, Z.mod_small by lia. destruct (Z.eqb_spec (zlen name) 0); lia. }
      rewrite Q. change (Z.to_nat 1) with 1%nat. cbn [file_aux]. split; [|split; [reflexivity|]].
      * f_equal. rewrite firstn_app, firstn_all2 by (unfold zlen in Lt; lia). f_equal. replace 18%nat with ((18 - length name) + length name)%nat at 2 by (unfold zlen in Lt; lia).
        rewrite repeat_app. rewrite firstn_app, firstn_all2, repeat_length, Nat.sub_diag by (rewrite repeat_length; lia). apply app_nil_r.
      * constructor; [|constructor]. rewrite app_length, repeat_length. unfold zlen in Lt. lia.
    + assert (Zs : zlen (skipn 18 name) = zlen name - 18) by (unfold zlen in *; rewrite skipn_length; lia).
      assert (Q : aux_entries name = 1 + aux_entries (skipn 18 name)).
      { unfold aux_entries. rewrite Zs. replace (zlen name) with ((zlen name - 18) + 1 * 18) at 1 2 by lia. rewrite Z.div_add, Z.mod_add by lia. lia. }
      assert (0 <= aux_entries (skipn 18 name)). { unfold aux_entries. rewrite Zs. pose proof (Z.div_pos (zlen name - 18) 18 ltac:(lia) ltac:(lia)). destruct (_ =? 0); lia. }
      destruct (IH (skipn 18 name)) as (I1 & I2 & I3). { rewrite skipn_length. lia. }
      rewrite Q. rewrite Z2Nat.inj_add by lia. change (Z.to_nat 1) with 1%nat. cbn [Nat.add file_aux]. rewrite zlen_cons, I1, I2. split; [|split; [lia|]].
      * f_equal. rewrite firstn_app. replace (18 - length name)%nat with 0%nat by (unfold zlen in Ge; lia). apply app_nil_r.
      * constructor; [|assumption]. rewrite firstn_length. unfold zlen in Ge. lia.
Qed.
Lemma aux_entries_bound name : zlen name <= 18 * 255 -> 0 <= aux_entries name < 256.
Proof.
  intros H. unfold aux_entries. pose proof (zlen_nonneg name). pose proof (Z.div_mod (zlen name) 18 ltac:(lia)). pose proof (Z.mod_pos_bound (zlen name) 18 ltac:(lia)).
  destruct (Z.eqb_spec (zlen name mod 18) 0); lia.
Qed.
Lemma dot_file_ok : name_ok dot_file. Proof. split; [discriminate|]. unfold dot_file. repeat constructor; lia. Qed.
Lemma file_part m f (H : table -> Prop) l i name v : ln_ok l -> zlen name <= 18 * 255 -> part m f H l i [x_file name] (file_entry name v) [(i, v mod 2 ^ 32)] l.
Proof.
  intros K Z. destruct (pieces_spec (length name) name (le_n _)) as (P1 & P2 & P3). unfold file_entry. rewrite P1, <- P2.
  change [(i, v mod 2 ^ 32)] with (if CLASS_FILE mod 2 ^ 8 =? 103 then [(i, v mod 2 ^ 32)] else []).
  apply part_short; [assumption|apply dot_file_ok|unfold dot_file; unfold zlen; cbn; lia|assumption|rewrite P2; now apply aux_entries_bound| |].
  - unfold basic, mk_entry, x_file. cbn [x_name x_value x_section x_type x_class x_aux e_name e_value e_section e_type e_class e_aux].
    repeat split. now rewrite map_length.
  - intros T _. unfold x_file. cbn [x_aux]. clear P1 P2. induction P3 as [|a r A _ IH]; cbn [map]; constructor; [|assumption]. split; [assumption|reflexivity].
Qed.
(** * sections *)
Lemma Ok_inj {A} (a b : A) : Ok a = Ok b -> a = b. Proof. congruence. Qed.
Lemma crc_none b : forall n c, (length b < n)%nat -> crc_loop b n c = UB.
Proof. induction b as [|x b IH]; intros [|n] c L; cbn in L; try lia; [reflexivity|]. cbn [crc_loop]. destruct (nth_error _ _); [|reflexivity]. apply IH. lia. Qed.
Lemma sub_dword_app a b i v : (0 <= i) -> sub_dword (a ++ b) (zlen a + i) v = a ++ sub_dword b i v.
Proof.
  intros P. unfold sub_dword. pose proof (zlen_nonneg a). replace (Z.to_nat (zlen a + i)) with (length a + Z.to_nat i)%nat by (unfold zlen; lia).
  replace (Z.to_nat (zlen a + i + 4)) with (length a + Z.to_nat (i + 4))%nat by (unfold zlen; lia).
  rewrite !skipn_app, !firstn_app. rewrite !(skipn_all2 a) by lia. rewrite (firstn_all2 a) by lia.
  replace (length a + Z.to_nat i - length a)%nat with (Z.to_nat i) by lia. replace (length a + Z.to_nat (i + 4) - length a)%nat with (Z.to_nat (i + 4)) by lia.
  cbn [app]. rewrite <- app_assoc. reflexivity.
Qed.
Lemma absolute_spec start fs : forall b b', 0 <= start -> absolute_fixups start fs (Some b) = Ok b' -> Forall is_byte b ->
  exists c, b' = Some c /\ zlen c = zlen b /\ Forall is_byte c /\
    repeat 0 (Z.to_nat start) ++ c =
    fold_left (fun b f => if is_none f && (f_type f =? FIX_RELOFF32) then sub_dword b (f_locofs f) (f_locofs f + f_addbytes f) else b) fs (repeat 0 (Z.to_nat start) ++ b).
Proof.
  induction fs as [|x fs IH]; intros b b' S0 E B; cbn [absolute_fixups fold_left] in *.
  - injection E as <-. exists b. repeat split; assumption.
  - destruct (is_none x && (f_type x =? FIX_RELOFF32)); [|now apply IH].
    cbn zeta in E. unfold poke32 in E. destruct (Z.leb_spec 0 (f_locofs x - start)) as [P|]; cbn [andb] in E; [|discriminate].
    destruct (Z.leb_spec (f_locofs x - start + 4) (zlen b)) as [Q|]; [|discriminate]. cbn [bindr] in E. apply IH in E; [|assumption|].
    2: { apply Forall_app. split; [|apply Forall_app; split; [apply le_bytes_byte|]]; apply Forall_forall; intros y Y; [apply firstn_In in Y|]; rewrite Forall_forall in B; apply B; [assumption|].
         rewrite <- (firstn_skipn (Z.to_nat (f_locofs x - start + 4)) b). apply in_or_app. now right. }
    destruct E as (c & -> & Zc & Bc & R). exists c. split; [reflexivity|]. split; [|split; [assumption|]].
    + rewrite Zc. unfold zlen in *. rewrite !app_length, le_bytes_length, firstn_length, skipn_length. lia.
    + rewrite R. f_equal. symmetry. replace (f_locofs x) with (zlen (repeat 0 (Z.to_nat start)) + (f_locofs x - start)) at 1 by (unfold zlen; rewrite repeat_length; lia).
      rewrite sub_dword_app by lia. reflexivity.
Qed.
Lemma absolute_none start fs : forall b', absolute_fixups start fs None = Ok b' -> b' = None /\
  forall b, fold_left (fun b f => if is_none f && (f_type f =? FIX_RELOFF32) then sub_dword b (f_locofs f) (f_locofs f + f_addbytes f) else b) fs b = b.
Proof.
  induction fs as [|x fs IH]; intros b' E; cbn [absolute_fixups fold_left] in *. { injection E as <-. split; reflexivity. }
  destruct (is_none x && (f_type x =? FIX_RELOFF32)); [discriminate|]. now apply IH.
Qed.
(** the contents of a section, from its buffer *)
Lemma resolved_buf m s b : section_wf m s -> absolute_fixups (s_start_loc s) (s_fix s) (s_buf s) = Ok b ->
  match b with
  | Some c => zlen c = s_max s - s_start_loc s /\ Forall is_byte c /\ resolved s = repeat 0 (Z.to_nat (s_start_loc s)) ++ c /\ s_buf s <> None
  | None => resolved s = repeat 0 (Z.to_nat (s_max s)) /\ s_buf s = None
  end.
Proof.
  intros W E. pose proof (w_size _ _ W) as [Z1 Z2]. pose proof (w_buf _ _ W) as WB. unfold resolved, image. destruct (s_buf s) as [b0|] eqn:Bf.
  - destruct WB as [Zb Bb]. destruct (absolute_spec _ _ _ _ (proj1 Z1) E Bb) as (c & -> & Zc & Bc & R). split; [lia|]. split; [assumption|]. split; [|discriminate].
    rewrite firstn_all2 by (unfold zlen in Zb; lia). now rewrite R.
  - destruct (absolute_none _ _ _ E) as [-> R]. split; [apply R|reflexivity].
Qed.
Lemma resolved_zlen m s b : section_wf m s -> absolute_fixups (s_start_loc s) (s_fix s) (s_buf s) = Ok b -> zlen (resolved s) = s_max s.
Proof.
  intros W E. pose proof (w_size _ _ W) as [Z1 Z2]. pose proof (resolved_buf _ _ _ W E) as R. destruct b as [c|].
  - destruct R as (Zc & _ & -> & _). rewrite zlen_app, Zc. unfold zlen. rewrite repeat_length. lia.
  - destruct R as [-> _]. unfold zlen. rewrite repeat_length. lia.
Qed.

(** the section as the section table leaves it *)
Record same (s x : section) : Prop := {
  sm_name : forall o, section_name o x = section_name o s; sm_max : s_max x = s_max s; sm_rel : num_relocs x = num_relocs s; sm_comdat : s_comdat x = s_comdat s;
  sm_number : s_comdat_number x = s_comdat_number s; sm_lines : s_lines x = s_lines s;
  sm_buf : s_comdat s <> 0 -> absolute_fixups (s_start_loc s) (s_fix s) (s_buf s) = Ok (s_buf x) }.
Lemma filter_zlen {A} (p : A -> bool) l : 0 <= zlen (filter p l) <= zlen l.
Proof. split; [apply zlen_nonneg|]. induction l as [|x l IH]; [reflexivity|]. cbn [filter]. destruct (p x); rewrite ?zlen_cons; lia. Qed.
Lemma clock_crc l : 0 <= crc32 0 l < 2 ^ 32.
Proof. apply clocks_range. lia. Qed.
Lemma section_aux_ok m f T i s x a : section_wf m s -> same s x -> section_aux (m_opt m) x = Ok a ->
  length a = 18%nat /\ aux_ok m f T i (XSection (s_max s) (Z.min 0xffff (num_relocs s)) (zlen (asked_lines m s)) (checksum s) (if s_comdat s =? 0 then 0 else s_comdat_number s) (s_comdat s)) a.
Proof.
  intros W S' E. destruct S' as [_ Sm Sr Sc Sn Sl Sb]. unfold section_aux in E. rewrite Sc, Sm, Sr, Sn, Sl in E.
  pose proof (w_size _ _ W) as [Z1 Z2]. pose proof (w_flags _ _ W) as (_ & C1 & C2 & _).
  set (nl := if lines_on (m_opt m) then match s_lines s with Some q => zlen q | None => 0 end else 0) in *.
  assert (NL : nl = zlen (asked_lines m s)). { unfold nl, asked_lines. destruct (lines_on _); [|reflexivity]. destruct (s_lines s); reflexivity. }
  assert (NLb : 0 <= nl < 2 ^ 16). { unfold nl. pose proof (w_lines _ _ W) as WL. destruct (lines_on _); [|lia]. destruct (s_lines s) as [q|]; [|lia]. pose proof (zlen_nonneg q). lia. }
  assert (NR : (if num_relocs s >? 65535 then 65535 else num_relocs s) = Z.min 0xffff (num_relocs s)). { destruct (Z.gtb_spec (num_relocs s) 65535); lia. }
  assert (NRb : 0 <= Z.min 0xffff (num_relocs s) < 2 ^ 16). { pose proof (proj1 (filter_zlen (fun f => negb (is_none f)) (s_fix s))). unfold num_relocs. change (2 ^ 16) with 65536. lia. }
  rewrite NR in E. rewrite <- NL.
  assert (CR : exists crc, Ok crc = (if s_comdat s =? 0 then Ok 0 else CRC32Comdat (s_buf x) (s_max s) 0) /\ crc = checksum s).
  { unfold checksum. destruct (Z.eqb_spec (s_comdat s) 0) as [Q|Q]; [eexists; split; reflexivity|]. specialize (Sb Q). pose proof (resolved_buf _ _ _ W Sb) as R. destruct (s_buf x) as [c|] eqn:B.
    - destruct R as (Zc & Bc & R & Nb). destruct (s_buf s) as [b0|]; [|congruence]. eexists. split; [|reflexivity].
      destruct (Z.eq_dec (s_start_loc s) 0) as [Z0|Z0].
      + rewrite R, Z0. cbn [Z.to_nat repeat app]. rewrite Z0, Z.sub_0_r in Zc. rewrite <- Zc. rewrite <- (app_nil_r c) at 2. symmetry. apply crc_correct; [assumption|lia].
      + exfalso. cbn [CRC32Comdat] in E. rewrite crc_none in E; [discriminate|]. unfold zlen in Zc. lia.
    - destruct R as [_ ->]. eexists. split; reflexivity. }
  destruct CR as (crc & CR & CQ). rewrite <- CR in E. cbn [bindr] in E. apply Ok_inj in E. subst a. rewrite <- CQ.
  assert (Cb : 0 <= crc < 2 ^ 32). { rewrite CQ. unfold checksum. destruct (_ =? 0); [lia|]. destruct (s_buf s); [|lia]. apply clock_crc. }
  assert (Lt : length ((if s_comdat s =? 0 then repeat 0 7 else le_bytes 4 crc ++ le_bytes 2 (s_comdat_number s) ++ le_bytes 1 (s_comdat s)) ++ repeat 0 3) = 10%nat).
  { rewrite app_length. destruct (_ =? 0); rewrite ?app_length, ?repeat_length, ?le_bytes_length; reflexivity. }
  split. { rewrite !app_length, !le_bytes_length. rewrite !app_length in Lt. lia. }
  split. { rewrite !app_length, !le_bytes_length. rewrite !app_length in Lt. lia. }
  set (tail := (if s_comdat s =? 0 then _ else _) ++ repeat 0 3) in *.
  split. { match goal with |- field 0 4 (le_bytes 4 ?v ++ ?c) = _ => change (field 0 4 ([] ++ le_bytes 4 v ++ c) = v) end. rewrite field_le by reflexivity. apply Z.mod_small. change (8 * Z.of_nat 4) with 32. lia. }
  split. { rewrite (field_le (le_bytes 4 _) 2) by apply le_bytes_length. apply Z.mod_small. change (8 * Z.of_nat 2) with 16. lia. }
  split. { rewrite app_assoc. rewrite (field_le _ 2) by (rewrite app_length, !le_bytes_length; reflexivity). apply Z.mod_small. change (8 * Z.of_nat 2) with 16. lia. }
  match goal with |- context [?a ++ ?b ++ ?c ++ tail] => replace (a ++ b ++ c ++ tail) with (((a ++ b) ++ c) ++ tail) by (now rewrite <- !app_assoc); set (pre := (a ++ b) ++ c) end. assert (Lp : length pre = 8%nat) by (unfold pre; rewrite !app_length, !le_bytes_length; reflexivity). unfold tail.
  assert (crc = 0 \/ s_comdat s <> 0). { destruct (Z.eq_dec (s_comdat s) 0) as [Q|Q]; [left|right; assumption]. rewrite CQ. unfold checksum. rewrite Q. reflexivity. }
  destruct (Z.eqb_spec (s_comdat s) 0) as [Q|Q].
  - rewrite Q. replace crc with 0 by (destruct H; congruence). unfold field. rewrite !skipn_app, Lp. rewrite !(skipn_all2 pre) by lia. cbn [app Nat.sub skipn repeat firstn]. repeat split; reflexivity.
  - clearbody pre. rewrite <- !app_assoc. split; [|split].
    + rewrite (field_le pre 4) by assumption. apply Z.mod_small. change (8 * Z.of_nat 4) with 32. lia.
    + rewrite app_assoc. rewrite (field_le _ 2) by (rewrite app_length, Lp, le_bytes_length; reflexivity). apply Z.mod_small. change (8 * Z.of_nat 2) with 16. lia.
    + rewrite 2 app_assoc. rewrite (field_le _ 1) by (rewrite !app_length, Lp, !le_bytes_length; reflexivity). apply Z.mod_small. change (2 ^ (8 * Z.of_nat 1)) with 256. lia.
Qed.
Lemma section_part m f (H : table -> Prop) : forall xs ss k i l ias recs l' ias',
  ln_ok l -> Forall (section_wf m) ss -> Forall2 same ss xs -> Z.of_nat k + zlen ss < 2 ^ 15 ->
  section_entries (m_opt m) xs (Z.of_nat k + 1) l ias = Ok (recs, l', ias') ->
  part m f H l i (x_secs m k ss) recs [] l' /\ (length ias = 18%nat -> length ias' = 18%nat).
Proof.
  induction xs as [|x xs IH]; intros ss k i l ias recs l' ias' K W S' B E; inversion S' as [|s ? ss' ? Sx Sr]; subst; cbn [section_entries] in E.
  - injection E as <- <- <-. split; [now apply part_nil|auto].
  - inversion W as [|? ? Ws Wr]; subst. rewrite (sm_name _ _ Sx) in E. destruct (alloc_name l (fst (section_name (m_opt m) s))) as [nm l1] eqn:A. cbn zeta in E. rewrite (sm_comdat _ _ Sx) in E.
    destruct (w_name _ _ Ws) as [Nm _]. destruct (alloc_named _ _ _ _ K Nm A) as (K1 & _ & _). rewrite zlen_cons in B. pose proof (zlen_nonneg ss').
    replace (Z.of_nat k + 1 + 1) with (Z.of_nat (S k) + 1) in E by lia. cbn [x_secs].
    change (x_sec m k s :: x_secs m (S k) ss') with ([x_sec m k s] ++ x_secs m (S k) ss').
    assert (Bs : forall aux, length aux = length (x_aux (x_sec m k s)) -> basic (x_sec m k s) (mk_entry (fst (section_name (m_opt m) s)) 0 (Z.of_nat k + 1) 0 CLASS_STATIC aux)).
    { intros aux La. unfold basic, mk_entry, x_sec. cbn [x_name x_value x_section x_type x_class x_aux e_name e_value e_section e_type e_class e_aux] in *. repeat split.
      - rewrite Z.mod_small by (change (2 ^ 15) with 32768 in B; change (2 ^ 16) with 65536; lia). apply swrap_small; [lia|]. change (2 ^ (16 - 1)) with 32768. change (2 ^ 15) with 32768 in B. lia.
      - exact La. }
    destruct (no_section_aux (m_opt m)) eqn:NA.
    + rewrite (w_comdat _ _ Ws NA) in E. cbn [negb orb Z.eqb] in E.
      destruct (section_entries (m_opt m) xs (Z.of_nat (S k) + 1) l1 ias) as [[[rs l2] j]| |] eqn:R; try discriminate. cbn [bindr] in E. injection E as <- <- <-.
      eapply IH in R; [|assumption|exact Wr|exact Sr|lia]. destruct R as [R1 R2]. split; [|exact R2]. change (?a :: rs) with ([a] ++ rs).
      change (@nil (Z * Z)) with ((if CLASS_STATIC mod 2 ^ 8 =? 103 then [(i, 0 mod 2 ^ 32)] else []) ++ []).
      eapply part_app; [|exact R1|reflexivity]. match goal with |- part _ _ _ _ _ _ [coff_write_symbol ?a ?b ?c ?d ?e 0] _ _ => change (coff_write_symbol a b c d e 0) with (coff_write_symbol a b c d e (zlen (@nil (list Z)))) end. eapply part_one; [assumption|exact Nm|exact A|constructor|reflexivity| |].
      * apply Bs. unfold x_sec. cbn [x_aux]. now rewrite NA.
      * intros T _. unfold x_sec. cbn [x_aux]. rewrite NA. constructor.
    + cbn [negb orb] in E. destruct (section_aux (m_opt m) x) as [a| |] eqn:SA; try discriminate. cbn [bindr] in E.
      destruct (section_entries (m_opt m) xs (Z.of_nat (S k) + 1) l1 a) as [[[rs l2] j]| |] eqn:R; try discriminate. cbn [bindr] in E. injection E as <- <- <-.
      assert (La : length a = 18%nat) by exact (proj1 (section_aux_ok m f [] 0 s x a Ws Sx SA)).
      eapply IH in R; [|assumption|exact Wr|exact Sr|lia]. destruct R as [R1 R2]. split; [|intros _; apply R2; exact La]. change (?a :: ?b :: rs) with ([a; b] ++ rs).
      change (@nil (Z * Z)) with ((if CLASS_STATIC mod 2 ^ 8 =? 103 then [(i, 0 mod 2 ^ 32)] else []) ++ []).
      eapply part_app; [|exact R1|reflexivity]. match goal with |- part _ _ _ _ _ _ [coff_write_symbol ?p ?b ?c ?d ?e 1; a] _ _ => change (coff_write_symbol p b c d e 1) with (coff_write_symbol p b c d e (zlen [a])) end. eapply part_one; [assumption|exact Nm|exact A|constructor; [exact La|constructor]|reflexivity| |].
      * apply Bs. unfold x_sec. cbn [x_aux]. now rewrite NA.
      * intros T _. unfold x_sec. cbn [x_aux]. rewrite NA. constructor; [|constructor]. exact (proj2 (section_aux_ok m f T i s x a Ws Sx SA)).
Qed.
