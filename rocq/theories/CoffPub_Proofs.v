(** C16: externals, publics and aliases in the symbol table. *)
From Verif Require Import Base Coff_Model Coff_Spec CoffStr_Proofs CoffSym_Proofs CoffEnt_Proofs Data_Proofs.
From Coq Require Import Lia.

Lemma skipn_skipn' : forall A (l : list A) n m, skipn n (skipn m l) = skipn (n + m) l.
Proof. intros A l n m. revert l. induction m as [|m IH]; intros l; [now rewrite Nat.add_0_r|]. rewrite Nat.add_succ_r. destruct l; [now rewrite !skipn_nil|]. cbn [skipn]. apply IH. Qed.
Definition idx_hyp (m : module) (s : st) (T : table) : Prop := forall n, exported m n -> designates m T (c_idx s n) n /\ 0 <= c_idx s n < 2 ^ 32.
Lemma sym_wf m n : module_ok m -> (n < length (m_syms m))%nat -> symbol_wf m (sym m n).
Proof. intros W L. pose proof (w_syms _ W) as H. rewrite Forall_forall in H. apply H. now apply nth_In. Qed.
Lemma weak_aux_length tag ch : length (weak_aux tag ch) = 18%nat.
Proof. unfold weak_aux. rewrite !app_length, !le_bytes_length, repeat_length. reflexivity. Qed.
Lemma weak_aux_fields tag ch : field 0 4 (weak_aux tag ch) = tag mod 2 ^ 32 /\ field 4 4 (weak_aux tag ch) = ch mod 2 ^ 32.
Proof.
  split; unfold weak_aux.
  - match goal with |- field 0 4 (le_bytes 4 ?v ++ ?c) = _ => change (field 0 4 ([] ++ le_bytes 4 v ++ c) = v mod 2 ^ 32) end. now apply field_le.
  - apply field_le. apply le_bytes_length.
Qed.
Lemma weak_aux_ok m f s T i a ch : idx_hyp m s T -> exported m a -> 0 <= ch < 2 ^ 32 -> aux_ok m f T i (XWeak (Some a) ch) (weak_aux (c_idx s a) ch).
Proof.
  intros H E C. split; [apply weak_aux_length|]. destruct (weak_aux_fields (c_idx s a) ch) as [-> ->]. destruct (H a E) as [D R]. rewrite !Z.mod_small by lia. split; [assumption|reflexivity].
Qed.
Lemma class_mod y : CoffGetClass y mod 2 ^ 8 = CoffGetClass y /\ CoffGetClass y <> 103.
Proof. unfold CoffGetClass. destruct (y_state y), (weak_ext y), (y_public y), (y_near y && negb (y_proc y)); split; reflexivity || discriminate. Qed.
Lemma type_mod y : CoffGetType y mod 2 ^ 16 = CoffGetType y.
Proof. unfold CoffGetType. destruct (y_proc y); reflexivity. Qed.
Lemma class_spec y : CoffGetClass y = match y_state y with
                | External => if weak_ext y then 105 else 2
                | _ => if y_public y then 2 else if y_near y && negb (y_proc y) then 6 else 3
                end.
Proof. reflexivity. Qed.
(** the record of a symbol *)
Lemma sym_basic m n v sec aux xa : symbol_wf m (sym m n) -> zlen (m_secs m) < 2 ^ 15 ->
  v = (if y_comm (sym m n) then y_total (sym m n) else y_offset (sym m n)) -> (sec = section_number (sym m n)) ->
  length aux = length xa -> basic (x_sym m n xa) (mk_entry (y_name (sym m n)) v sec (CoffGetType (sym m n)) (CoffGetClass (sym m n)) aux).
Proof.
  intros W B V Sc A. destruct (w_yofs _ _ W) as [O1 O2]. unfold u32 in *. unfold basic, mk_entry, x_sym.
  cbn [x_name x_value x_section x_type x_class x_aux e_name e_value e_section e_type e_class e_aux].
  split; [reflexivity|]. split. { rewrite V. apply Z.mod_small. destruct (y_comm _); lia. }
  split. { rewrite Sc. unfold section_number, is_internal. destruct (y_state (sym m n)); try reflexivity.
           pose proof (w_yseg _ _ W) as K. destruct (y_seg (sym m n)) as [k|]; [|reflexivity].
           assert (0 <= Z.of_nat k + 1 < 32769). { change (2 ^ 15) with 32768 in B. unfold zlen in B. lia. }
           rewrite Z.mod_small by (change (2 ^ 16) with 65536; lia). apply swrap_small; [lia|]. change (2 ^ (16 - 1)) with 32768. change (2 ^ 15) with 32768 in B. unfold zlen in B. lia. }
  split; [apply type_mod|]. split; [apply class_mod|assumption].
Qed.
Lemma not_file cl (i v : Z) : cl mod 2 ^ 8 = cl -> cl <> 103 -> (if cl mod 2 ^ 8 =? 103 then [(i, v)] else []) = [].
Proof. intros -> N. destruct (Z.eqb_spec cl 103); [contradiction|reflexivity]. Qed.

Lemma ext_part m f s : forall es l ias recs l' ias' i, module_ok m -> ln_ok l -> Forall (fun n => (n < length (m_syms m))%nat) es -> Forall (fun n => y_state (sym m n) = External) es ->
  ext_entries m s es l ias = (recs, l', ias') ->
  part m f (idx_hyp m s) l i
    (map (fun e => x_sym m e (if weak_ext (sym m e) then [XWeak (y_alt (sym m e)) 2] else [])) (filter (fun e => negb (skipped (sym m e))) es)) recs [] l' /\
  (length ias = 18%nat -> length ias' = 18%nat).
Proof.
  intros es. induction es as [|e es IH]; intros l ias recs l' ias' i W K Kn Ex E; cbn [ext_entries] in E.
  - injection E as <- <- <-. split; [now apply part_nil|auto].
  - inversion Kn as [|? ? Ke Kr]; subst. inversion Ex as [|? ? Xe Xr]; subst. cbn [filter map]. cbn zeta in E. pose proof (sym_wf _ _ W Ke) as Ws.
    destruct (skipped (sym m e)); cbn [negb map]; [now eapply IH; eauto|].
    destruct (alloc_name l (y_name (sym m e))) as [nm l1] eqn:A. destruct (alloc_named _ _ _ _ K (w_yname _ _ Ws) A) as (K1 & _ & _).
    assert (C : match (if weak_ext (sym m e) then y_alt (sym m e) else None) with
                | Some a => exists rs, ext_entries m s es l1 (weak_aux (c_idx s a) 2) = (rs, l', ias') /\ y_alt (sym m e) = Some a /\ weak_ext (sym m e) = true /\
                    recs = [coff_write_symbol nm (if y_comm (sym m e) then y_total (sym m e) else y_offset (sym m e)) 0 (CoffGetType (sym m e)) (CoffGetClass (sym m e)) 1; weak_aux (c_idx s a) 2] ++ rs
                | None => exists rs, ext_entries m s es l1 ias = (rs, l', ias') /\ weak_ext (sym m e) = false /\
                    recs = [coff_write_symbol nm (if y_comm (sym m e) then y_total (sym m e) else y_offset (sym m e)) 0 (CoffGetType (sym m e)) (CoffGetClass (sym m e)) 0] ++ rs
                end).
    { assert (NA : weak_ext (sym m e) = true -> y_alt (sym m e) <> None). { unfold weak_ext. destruct (y_alt (sym m e)); [discriminate|]. rewrite andb_false_r. discriminate. }
      destruct (weak_ext (sym m e)) eqn:We.
      - specialize (NA eq_refl). destruct (y_alt (sym m e)) as [a|]; [|congruence]. destruct (ext_entries m s es l1 (weak_aux (c_idx s a) 2)) as [[rs l2] j] eqn:R.
        apply pair_equal_spec in E as [E1 <-]. apply pair_equal_spec in E1 as [<- <-]. exists rs. repeat split; reflexivity.
      - destruct (y_alt (sym m e)) as [a|]; destruct (ext_entries m s es l1 ias) as [[rs l2] j] eqn:R;
        apply pair_equal_spec in E as [E1 <-]; apply pair_equal_spec in E1 as [<- <-]; exists rs; repeat split; reflexivity. }
    change (?x :: map ?g ?r) with ([x] ++ map g r).
    replace (@nil (Z * Z)) with ((if CoffGetClass (sym m e) mod 2 ^ 8 =? 103 then [(i, (if y_comm (sym m e) then y_total (sym m e) else y_offset (sym m e)) mod 2 ^ 32)] else []) ++ []).
    2: { rewrite not_file by apply class_mod. reflexivity. }
    assert (Sn : 0 = section_number (sym m e)). { unfold section_number, is_internal. now rewrite Xe. }
    assert (SB : zlen (m_secs m) < 2 ^ 15) by apply (w_secs _ W).
    destruct (if weak_ext (sym m e) then y_alt (sym m e) else None) as [a|] eqn:Q.
    + destruct C as (rs & R & Al & We & ->). destruct (IH l1 _ _ _ _ (i + xsizes [x_sym m e (if weak_ext (sym m e) then [XWeak (y_alt (sym m e)) 2] else [])]) W K1 Kr Xr R) as [P1 P2].
      split; [|intros _; apply P2; apply weak_aux_length]. eapply part_app; [|exact P1|reflexivity].
      match goal with |- part _ _ _ _ _ _ [coff_write_symbol ?p ?b ?c ?d ?e 1; ?a] _ _ => change (coff_write_symbol p b c d e 1) with (coff_write_symbol p b c d e (zlen [a])) end.
      rewrite We. eapply part_one; [assumption|exact (w_yname _ _ Ws)|exact A|constructor; [apply weak_aux_length|constructor]|reflexivity| |].
      * apply sym_basic; [exact Ws|exact SB|reflexivity|exact Sn|reflexivity].
      * intros T HT. cbn [x_sym x_aux]. constructor; [|constructor]. rewrite Al. apply weak_aux_ok; [assumption| |lia]. pose proof (w_yalt _ _ Ws) as WA. rewrite Al in WA. now apply WA.
    + destruct C as (rs & R & We & ->). destruct (IH l1 _ _ _ _ (i + xsizes [x_sym m e (if weak_ext (sym m e) then [XWeak (y_alt (sym m e)) 2] else [])]) W K1 Kr Xr R) as [P1 P2].
      split; [|exact P2]. eapply part_app; [|exact P1|reflexivity].
      match goal with |- part _ _ _ _ _ _ [coff_write_symbol ?p ?b ?c ?d ?e 0] _ _ => change (coff_write_symbol p b c d e 0) with (coff_write_symbol p b c d e (zlen (@nil (list Z)))) end.
      rewrite We. eapply part_one; [assumption|exact (w_yname _ _ Ws)|exact A|constructor|reflexivity| |].
      * apply sym_basic; [exact Ws|exact SB|reflexivity|exact Sn|reflexivity].
      * intros T HT. constructor.
Qed.
Lemma alias_part m f s : forall al l recs l' i, module_ok m -> ln_ok l -> Forall (fun n => (n < length (m_syms m))%nat) (map fst al) ->
  Forall (fun a => match snd a with Some n => exported m n | None => True end) al -> alias_entries m s al l = (recs, l') ->
  part m f (idx_hyp m s) l i (map (x_alias m) al) recs [] l'.
Proof.
  induction al as [|[n sub] al IH]; intros l recs l' i W K Kn Ex E; cbn [alias_entries map fst] in *.
  - injection E as <- <-. now apply part_nil.
  - inversion Kn as [|? ? Ke Kr]; subst. inversion Ex as [|? ? Xe Xr]; subst. pose proof (sym_wf _ _ W Ke) as Ws.
    destruct (alloc_name l (y_name (sym m n))) as [nm l1] eqn:A. destruct (alloc_named _ _ _ _ K (w_yname _ _ Ws) A) as (K1 & _ & _). cbn zeta in E.
    destruct (alias_entries m s al l1) as [rs l2] eqn:R. apply pair_equal_spec in E as [<- <-]. change (?x :: map ?g ?r) with ([x] ++ map g r).
    change (@nil (Z * Z)) with ((if CLASS_WEAK mod 2 ^ 8 =? 103 then [(i, 0 mod 2 ^ 32)] else []) ++ []). change (?a :: ?b :: rs) with ([a; b] ++ rs).
    eapply part_app; [|eapply IH; eauto|reflexivity].
    match goal with |- part _ _ _ _ _ _ [coff_write_symbol ?p ?b ?c ?d ?e 1; ?a] _ _ => change (coff_write_symbol p b c d e 1) with (coff_write_symbol p b c d e (zlen [a])) end.
    eapply part_one; [assumption|exact (w_yname _ _ Ws)|exact A|constructor; [apply weak_aux_length|constructor]|reflexivity| |].
    + repeat split.
    + intros T HT. cbn [x_alias x_aux fst snd]. constructor; [|constructor]. cbn [snd] in Xe. destruct sub as [k|].
      * now apply weak_aux_ok.
      * split; [apply weak_aux_length|]. destruct (weak_aux_fields 0 3) as [-> ->]. split; reflexivity.
Qed.

(** * publics *)
(** the indices of the queue *)
Fixpoint placed (m : module) (c : nat -> Z) (q : list nat) (file i : Z) : Prop :=
  match q with
  | [] => True
  | p :: q =>
      if lines_on (m_opt m) && y_proc (sym m p) then
        let i' := i + (if y_file (sym m p) =? file then 0 else 1 + aux_entries (file_name m (y_file (sym m p)))) in
        c p = i' /\ placed m c q (y_file (sym m p)) (i' + 7)
      else c p = i /\ placed m c q file (i + 1)
  end.
(** .file entries before the procedures *)
Fixpoint fvals (m : module) (s : st) (q : list nat) (file i : Z) : list (Z * Z) :=
  match q with
  | [] => []
  | p :: q =>
      if lines_on (m_opt m) && y_proc (sym m p) then
        (if y_file (sym m p) =? file then [] else [(i, next_file (c_dbg s p) mod 2 ^ 32)]) ++
        fvals m s q (y_file (sym m p)) (i + (if y_file (sym m p) =? file then 0 else 1 + aux_entries (file_name m (y_file (sym m p)))) + 7)
      else fvals m s q file (i + 1)
  end.
Definition dbg_hyp (m : module) (f : list Z) (s : st) (T : table) : Prop := forall p,
  let d := c_dbg s p in
  start_line d = proc_start m p /\ end_line d = proc_end m p /\
  match group_of m p with Some _ => 0 <= ln_fileofs d < 2 ^ 32 /\ slice (ln_fileofs d) 6 f = Some (le_bytes 4 (c_idx s p) ++ le_bytes 2 0) | None => ln_fileofs d = 0 end /\
  match next_group m p with Some q => designates m T (next_proc d) q /\ 0 < next_proc d < 2 ^ 32 - 2 | None => next_proc d = 0 end.
Lemma put_length i bs ias : (i + length bs <= length ias)%nat -> length (put i bs ias) = length ias.
Proof. intros H. unfold put. rewrite !app_length, firstn_length, skipn_length. lia. Qed.
Lemma put_same i n v ias : (i + n <= length ias)%nat -> field i n (put i (le_bytes n v) ias) = v mod 2 ^ (8 * Z.of_nat n).
Proof. intros H. unfold put. apply field_le. rewrite firstn_length. lia. Qed.
Lemma put_other i n j bs ias : (j + length bs <= length ias)%nat -> (i + n <= j \/ j + length bs <= i)%nat -> (i + n <= length ias)%nat -> field i n (put j bs ias) = field i n ias.
Proof.
  intros H D L. unfold field, put. f_equal. destruct D as [D|D].
  - rewrite skipn_app, firstn_app. rewrite firstn_length, Nat.min_l by lia.
    replace (n - length (skipn i (firstn j ias)))%nat with 0%nat by (rewrite skipn_length, firstn_length; lia). cbn [firstn]. rewrite app_nil_r.
    rewrite skipn_firstn_comm, firstn_firstn. f_equal. lia.
  - rewrite skipn_app. rewrite skipn_all2 by (rewrite firstn_length; lia). cbn [app]. rewrite firstn_length, Nat.min_l by lia. rewrite skipn_app, skipn_all2 by lia. cbn [app].
    rewrite skipn_skipn'. f_equal. f_equal. lia.
Qed.

Lemma dot_names : name_ok dot_bf /\ name_ok dot_lf /\ name_ok dot_ef.
Proof. repeat split; try discriminate; repeat constructor; lia. Qed.
Lemma func_basic m p name v aux xa : symbol_wf m (sym m p) -> zlen (m_secs m) < 2 ^ 15 -> length aux = length xa ->
  basic (x_func m p name (v mod 2 ^ 32) xa) (mk_entry name v (section_number (sym m p)) 0 CLASS_FUNCTION aux).
Proof.
  intros W B A. destruct (sym_basic m p (if y_comm (sym m p) then y_total (sym m p) else y_offset (sym m p)) (section_number (sym m p)) [] [] W B eq_refl eq_refl eq_refl) as (_ & _ & Sc & _).
  unfold basic, mk_entry, x_func in *. cbn [x_name x_value x_section x_type x_class x_aux e_name e_value e_section e_type e_class e_aux] in *.
  split; [reflexivity|]. split; [reflexivity|]. split; [exact Sc|]. split; [reflexivity|]. split; [reflexivity|exact A].
Qed.
Lemma proc_aux m f s T i p ias : dbg_hyp m f s T -> symbol_wf m (sym m p) -> length ias = 18%nat -> c_idx s p = i -> 0 <= i < 2 ^ 32 - 2 ->
  let d := c_dbg s p in
  let a1 := put 0 (le_bytes 4 (i + 2) ++ le_bytes 4 (y_total (sym m p)) ++ le_bytes 4 (ln_fileofs d) ++ le_bytes 4 (next_proc d)) ias in
  let a2 := put 12 (le_bytes 4 (if next_proc d =? 0 then 0 else next_proc d + 2)) (put 4 (le_bytes 2 (start_line d)) (put 0 (le_bytes 4 0) a1)) in
  let a3 := put 4 (le_bytes 2 (end_line d)) (put 0 (le_bytes 4 0) a2) in
  aux_ok m f T i (XProc p) a1 /\ (forall j, aux_ok m f T j (XBegin p) a2) /\ (forall j, aux_ok m f T j (XEnd p) a3).
Proof.
  intros D W L C B. cbn zeta. destruct (D p) as (D1 & D2 & D3 & D4). destruct (w_yofs _ _ W) as [_ O2]. unfold u32 in O2. rewrite C in D3.
  set (a1 := put 0 _ ias). set (d := c_dbg s p) in *.
  assert (E1 : a1 = (le_bytes 4 (i + 2) ++ le_bytes 4 (y_total (sym m p)) ++ le_bytes 4 (ln_fileofs d) ++ le_bytes 4 (next_proc d)) ++ skipn 16 ias) by reflexivity.
  assert (L1 : length a1 = 18%nat). { unfold a1. rewrite put_length; [assumption|]. rewrite !app_length, !le_bytes_length, L. lia. }
  clearbody a1. set (b1 := put 0 (le_bytes 4 0) a1). assert (Lb1 : length b1 = 18%nat) by (unfold b1; rewrite put_length; rewrite ?le_bytes_length; lia).
  set (b2 := put 4 (le_bytes 2 (start_line d)) b1). assert (Lb2 : length b2 = 18%nat) by (unfold b2; rewrite put_length; rewrite ?le_bytes_length; lia).
  set (a2 := put 12 _ b2). assert (La2 : length a2 = 18%nat) by (unfold a2; rewrite put_length; rewrite ?le_bytes_length; lia).
  set (c1 := put 0 (le_bytes 4 0) a2). assert (Lc1 : length c1 = 18%nat) by (unfold c1; rewrite put_length; rewrite ?le_bytes_length; lia).
  split; [|split].
  - split; [assumption|]. rewrite E1. rewrite <- !app_assoc.
    assert (F1 : forall r, field 0 4 (le_bytes 4 (i + 2) ++ r) = i + 2).
    { intros r. change (field 0 4 ([] ++ le_bytes 4 (i + 2) ++ r) = i + 2). rewrite field_le by reflexivity. apply Z.mod_small. change (8 * Z.of_nat 4) with 32. lia. }
    split; [apply F1|]. split. { rewrite field_le by apply le_bytes_length. apply Z.mod_small. change (8 * Z.of_nat 4) with 32. lia. }
    assert (F3 : field 8 4 (le_bytes 4 (i + 2) ++ le_bytes 4 (y_total (sym m p)) ++ le_bytes 4 (ln_fileofs d) ++ le_bytes 4 (next_proc d) ++ skipn 16 ias) = ln_fileofs d mod 2 ^ 32).
    { rewrite app_assoc. rewrite field_le by (rewrite app_length, !le_bytes_length; reflexivity). reflexivity. }
    assert (F4 : field 12 4 (le_bytes 4 (i + 2) ++ le_bytes 4 (y_total (sym m p)) ++ le_bytes 4 (ln_fileofs d) ++ le_bytes 4 (next_proc d) ++ skipn 16 ias) = next_proc d mod 2 ^ 32).
    { rewrite app_assoc, app_assoc. rewrite field_le by (rewrite !app_length, !le_bytes_length; reflexivity). reflexivity. }
    rewrite F3, F4. split.
    + destruct (group_of m p). { rewrite Z.mod_small by lia. apply D3. } rewrite D3. reflexivity.
    + unfold next_ok. destruct (next_group m p) as [q|]. { rewrite Z.sub_0_r, Z.mod_small by lia. apply D4. } rewrite D4. reflexivity.
  - intros j. split; [assumption|]. split.
    + unfold a2. rewrite put_other by (rewrite ?le_bytes_length; lia). unfold b2. rewrite put_same by lia. now rewrite D1.
    + unfold a2. rewrite put_same by lia. unfold next_ok. destruct (next_group m p) as [q|].
      * destruct D4 as [D4 R]. destruct (Z.eqb_spec (next_proc d) 0); [lia|]. change (8 * Z.of_nat 4) with 32. rewrite Z.mod_small by lia. replace (next_proc d + 2 - 2) with (next_proc d) by lia. assumption.
      * rewrite D4. reflexivity.
  - intros j. split; [rewrite put_length; rewrite ?le_bytes_length; lia|]. rewrite put_same by lia. now rewrite D2.
Qed.
Lemma last_length rs (ias : list Z) : Forall (fun a => length a = 18%nat) rs -> length ias = 18%nat -> length (last_aux rs ias) = 18%nat.
Proof.
  intros F L. unfold last_aux. destruct rs as [|r rs]; [assumption|]. revert r F. induction rs as [|x rs IH]; intros r F; inversion F; subst; cbn [last]; [assumption|]. now apply IH.
Qed.
Lemma pub_entries_cons m s p q lastfile cnt l ias :
  let y := sym m p in let proc := lines_on (m_opt m) && y_proc y in
  let files := if proc && negb (y_file y =? lastfile) then file_entry (file_name m (y_file y)) (next_file (c_dbg s p)) else [] in
  let ias' := match files with [] => ias | f :: r => last_aux r ias end in
  let '(nm, l1) := alloc_name l (y_name y) in
  let d := c_dbg s p in
  let cnt1 := cnt + zlen files + 1 in
  let a1 := put 0 (le_bytes 4 (cnt1 + 1) ++ le_bytes 4 (y_total y) ++ le_bytes 4 (ln_fileofs d) ++ le_bytes 4 (next_proc d)) ias' in
  let a2 := put 12 (le_bytes 4 (if next_proc d =? 0 then 0 else next_proc d + 2)) (put 4 (le_bytes 2 (start_line d)) (put 0 (le_bytes 4 0) a1)) in
  let a3 := put 4 (le_bytes 2 (end_line d)) (put 0 (le_bytes 4 0) a2) in
  let r := coff_write_symbol nm (y_offset y) (section_number y) (CoffGetType y) (CoffGetClass y) (if proc then 1 else 0) in
  pub_entries m s (p :: q) lastfile cnt l ias =
  if proc then
    let '(rs, c, l2, j) := pub_entries m s q (y_file y) (cnt1 + 6) l1 a3 in
    (files ++ [r; a1] ++ [coff_write_symbol (inl dot_bf) (y_offset y) (section_number y) 0 CLASS_FUNCTION 1; a2] ++
     [coff_write_symbol (inl dot_lf) (ln_count d) (section_number y) 0 CLASS_FUNCTION 0] ++
     [coff_write_symbol (inl dot_ef) (y_offset y + y_total y) (section_number y) 0 CLASS_FUNCTION 1; a3] ++ rs, c, l2, j)
  else let '(rs, c, l2, j) := pub_entries m s q lastfile (cnt + 1) l1 ias in ([r] ++ rs, c, l2, j).
Proof.
  cbn zeta. cbn [pub_entries]. destruct (alloc_name l (y_name (sym m p))) as [nm l1]. destruct (lines_on (m_opt m) && y_proc (sym m p)).
  - reflexivity.
  - cbn [andb app]. change (zlen (@nil (list Z))) with 0. rewrite Z.add_0_r. reflexivity.
Qed.
Lemma pub_part m f s : forall q lastfile cnt l ias recs cnt' l' ias', module_ok m -> ln_ok l -> length ias = 18%nat ->
  Forall (fun p => y_state (sym m p) = Internal /\ symbol_wf m (sym m p)) q -> placed m (c_idx s) q lastfile cnt -> (forall p, ln_count (c_dbg s p) = proc_count m p) ->
  0 <= cnt -> cnt + xsizes (x_pubs m q lastfile) < 2 ^ 32 ->
  pub_entries m s q lastfile cnt l ias = (recs, cnt', l', ias') ->
  part m f (dbg_hyp m f s) l cnt (x_pubs m q lastfile) recs (fvals m s q lastfile cnt) l' /\ cnt' = cnt + zlen recs.
Proof.
  intros q. induction q as [|p q IH]; intros lastfile cnt l ias recs cnt' l' ias' W K Li Q Pl Ct C0 Cm E.
  - cbn [pub_entries] in E. injection E as <- <- <- <-. split; [now apply part_nil|]. unfold zlen. cbn. lia.
  - inversion Q as [|? ? [Qi Qs] Qr]; subst. pose proof (pub_entries_cons m s p q lastfile cnt l ias) as EQ. cbn zeta in EQ.
    destruct (alloc_name l (y_name (sym m p))) as [nm l1] eqn:A. destruct (alloc_named _ _ _ _ K (w_yname _ _ Qs) A) as (K1 & X1 & _). rewrite EQ in E. clear EQ.
    assert (SB : zlen (m_secs m) < 2 ^ 15) by apply (w_secs _ W).
    assert (NC : y_comm (sym m p) = false). { destruct (y_comm (sym m p)) eqn:YC; [|reflexivity]. pose proof (w_ycomm _ _ Qs YC). congruence. }
    cbn [placed x_pubs fvals] in *. cbn zeta in *.
    destruct (lines_on (m_opt m) && y_proc (sym m p)) eqn:PR.
    + destruct (w_yfile _ _ Qs) as [F1 F2]. { apply andb_true_iff in PR. tauto. }
      set (name := file_name m (y_file (sym m p))) in *.
      set (files := if true && negb (y_file (sym m p) =? lastfile) then file_entry name (next_file (c_dbg s p)) else []) in *.
      assert (FP : part m f (dbg_hyp m f s) l cnt (if y_file (sym m p) =? lastfile then [] else [x_file name]) files (if y_file (sym m p) =? lastfile then [] else [(cnt, next_file (c_dbg s p) mod 2 ^ 32)]) l).
      { unfold files. cbn [andb]. destruct (y_file (sym m p) =? lastfile); cbn [negb]; [now apply part_nil|now apply file_part]. }
      assert (FZ : zlen files = if y_file (sym m p) =? lastfile then 0 else 1 + aux_entries name).
      { unfold files. cbn [andb]. destruct (y_file (sym m p) =? lastfile); cbn [negb]; [reflexivity|]. unfold file_entry. rewrite zlen_cons. destruct (pieces_spec (length name) name (le_n _)) as (P1 & P2 & P3). rewrite P1, P2. lia. }
      assert (FX : xsizes (if y_file (sym m p) =? lastfile then [] else [x_file name]) = zlen files) by (symmetry; apply FP).
      rewrite <- FZ in *. set (i := cnt + zlen files) in *. destruct Pl as [Ci Pl].
      set (ias1 := match files with [] => ias | _ :: r => last_aux r ias end) in *.
      assert (L1 : length ias1 = 18%nat).
      { unfold ias1, files. cbn [andb]. destruct (y_file (sym m p) =? lastfile); cbn [negb]; [assumption|]. unfold file_entry. destruct (pieces_spec (length name) name (le_n _)) as (P1 & P2 & P3). rewrite P1. now apply last_length. }
      replace (i + 1 + 1) with (i + 2) in E by lia. clearbody files.
      set (d := c_dbg s p) in *.
      set (a1 := put 0 (le_bytes 4 (i + 2) ++ le_bytes 4 (y_total (sym m p)) ++ le_bytes 4 (ln_fileofs d) ++ le_bytes 4 (next_proc d)) ias1) in *.
      set (a2 := put 12 (le_bytes 4 (if next_proc d =? 0 then 0 else next_proc d + 2)) (put 4 (le_bytes 2 (start_line d)) (put 0 (le_bytes 4 0) a1))) in *.
      set (a3 := put 4 (le_bytes 2 (end_line d)) (put 0 (le_bytes 4 0) a2)) in *.
      assert (La1 : length a1 = 18%nat). { unfold a1. rewrite put_length; [assumption|]. rewrite !app_length, !le_bytes_length, L1. lia. }
      assert (La2 : length a2 = 18%nat). { unfold a2. rewrite !put_length; rewrite ?put_length; rewrite ?put_length; rewrite ?le_bytes_length; lia. }
      assert (La3 : length a3 = 18%nat). { unfold a3. rewrite !put_length; rewrite ?put_length; rewrite ?le_bytes_length; lia. }
      destruct (pub_entries m s q (y_file (sym m p)) (i + 1 + 6) l1 a3) as [[[rs c] l2] j] eqn:R.
      apply pair_equal_spec in E as [E <-]. apply pair_equal_spec in E as [E <-]. apply pair_equal_spec in E as [<- <-].
      rewrite xsizes_app, FX in Cm. cbn [xsizes fold_right] in Cm. fold (xsizes (x_pubs m q (y_file (sym m p)))) in Cm.
      unfold xsize in Cm. cbn [x_sym x_func x_aux] in Cm. change (zlen [XProc p]) with 1 in Cm. change (zlen [XBegin p]) with 1 in Cm. change (zlen [XEnd p]) with 1 in Cm. change (zlen (@nil xaux)) with 0 in Cm.
      pose proof (xsizes_nonneg (x_pubs m q (y_file (sym m p)))). pose proof (zlen_nonneg files).
      replace (i + 1 + 6) with (i + 7) in R by lia.
      apply IH in R; [|assumption..|unfold i; lia|unfold i; lia]. destruct R as [R Rc].
      destruct dot_names as (Nb & Nl & Ne).
      assert (AX : forall T, dbg_hyp m f s T -> aux_ok m f T i (XProc p) a1 /\ (forall j, aux_ok m f T j (XBegin p) a2) /\ (forall j, aux_ok m f T j (XEnd p) a3)).
      { intros T HT. apply (proc_aux m f s T i p ias1 HT Qs L1 Ci). unfold i. lia. }
      split.
      * eapply part_app; [exact FP| |rewrite FX; reflexivity].
        match goal with |- part _ _ _ _ _ (?a :: ?b :: ?c :: ?d :: ?r) _ ?F _ =>
          change (a :: b :: c :: d :: r) with ([a] ++ [b] ++ [c] ++ [d] ++ r); change F with ([] ++ [] ++ [] ++ [] ++ F) end.
        eapply part_app; [|eapply part_app; [|eapply part_app; [|eapply part_app; [|exact R|]|reflexivity]|reflexivity]|reflexivity].
        -- match goal with |- part _ _ _ _ _ _ [coff_write_symbol ?p ?b ?c ?d ?e 1; ?a] _ _ => change (coff_write_symbol p b c d e 1) with (coff_write_symbol p b c d e (zlen [a])) end.
           rewrite <- (not_file (CoffGetClass (sym m p)) i (y_offset (sym m p) mod 2 ^ 32)) by apply class_mod.
           eapply part_one; [assumption|exact (w_yname _ _ Qs)|exact A|constructor; [exact La1|constructor]|reflexivity| |].
           ++ apply sym_basic; [exact Qs|exact SB|now rewrite NC|reflexivity|reflexivity].
           ++ intros T HT. constructor; [|constructor]. apply (AX T HT).
        -- match goal with |- part _ _ _ _ _ _ [coff_write_symbol ?p ?b ?c ?d ?e 1; ?a] _ _ => change (coff_write_symbol p b c d e 1) with (coff_write_symbol p b c d e (zlen [a])) end.
           match goal with |- part _ _ _ _ ?i _ _ [] _ => change (@nil (Z * Z)) with (if CLASS_FUNCTION mod 2 ^ 8 =? 103 then [(i, y_offset (sym m p) mod 2 ^ 32)] else []) end.
           replace (y_offset (sym m p)) with (y_offset (sym m p) mod 2 ^ 32) at 1 by (apply Z.mod_small; apply (w_yofs _ _ Qs)).
           apply part_short; [assumption|exact Nb|unfold zlen; cbn; lia|constructor; [exact La2|constructor]|reflexivity| |].
           ++ apply func_basic; [assumption..|reflexivity].
           ++ intros T HT. constructor; [|constructor]. apply (AX T HT).
        -- match goal with |- part _ _ _ _ _ _ [coff_write_symbol ?a ?b ?c ?d ?e 0] _ _ => change (coff_write_symbol a b c d e 0) with (coff_write_symbol a b c d e (zlen (@nil (list Z)))) end.
           match goal with |- part _ _ _ _ ?i _ _ [] _ => change (@nil (Z * Z)) with (if CLASS_FUNCTION mod 2 ^ 8 =? 103 then [(i, ln_count d mod 2 ^ 32)] else []) end.
           rewrite <- (Ct p). fold d. replace (ln_count d) with (ln_count d mod 2 ^ 32) at 1.
           2: { unfold d. rewrite Ct. unfold proc_count. destruct (group_of m p) as [[l0 g]|]; [|reflexivity]. apply Z.mod_small. pose proof (Z.mod_pos_bound (1 + zlen g) (2 ^ 16) ltac:(lia)). lia. }
           apply part_short; [assumption|exact Nl|unfold zlen; cbn; lia|constructor|reflexivity| |].
           ++ apply func_basic; [assumption..|reflexivity].
           ++ intros T HT. constructor.
        -- match goal with |- part _ _ _ _ _ _ [coff_write_symbol ?p ?b ?c ?d ?e 1; ?a] _ _ => change (coff_write_symbol p b c d e 1) with (coff_write_symbol p b c d e (zlen [a])) end.
           match goal with |- part _ _ _ _ ?i _ _ [] _ => change (@nil (Z * Z)) with (if CLASS_FUNCTION mod 2 ^ 8 =? 103 then [(i, (y_offset (sym m p) + y_total (sym m p)) mod 2 ^ 32)] else []) end.
           apply part_short; [assumption|exact Ne|unfold zlen; cbn; lia|constructor; [exact La3|constructor]|reflexivity| |].
           ++ apply func_basic; [assumption..|reflexivity].
           ++ intros T HT. constructor; [|constructor]. apply (AX T HT).
        -- cbn [xsizes fold_right]. unfold xsize. cbn [x_func x_sym x_aux]. unfold zlen at 2 3 4 5. cbn [length]. unfold i. lia.
      * rewrite Rc. rewrite !zlen_app. unfold zlen at 3 4 5 6. cbn [length]. unfold i. lia.
    + destruct (pub_entries m s q lastfile (cnt + 1) l1 ias) as [[[rs c] l2] j] eqn:R.
      apply pair_equal_spec in E as [E <-]. apply pair_equal_spec in E as [E <-]. apply pair_equal_spec in E as [<- <-]. destruct Pl as [Ci Pl].
      cbn [xsizes fold_right] in Cm. fold (xsizes (x_pubs m q lastfile)) in Cm. unfold xsize in Cm. cbn [x_sym x_aux] in Cm. change (zlen (@nil xaux)) with 0 in Cm.
      apply IH in R; [|assumption..|lia|lia]. destruct R as [R Rc]. split.
      * change (?a :: x_pubs m q lastfile) with ([a] ++ x_pubs m q lastfile). change (fvals m s q lastfile (cnt + 1)) with ([] ++ fvals m s q lastfile (cnt + 1)).
        eapply part_app; [|exact R|reflexivity].
        match goal with |- part _ _ _ _ _ _ [coff_write_symbol ?a ?b ?c ?d ?e 0] _ _ => change (coff_write_symbol a b c d e 0) with (coff_write_symbol a b c d e (zlen (@nil (list Z)))) end.
        rewrite <- (not_file (CoffGetClass (sym m p)) cnt (y_offset (sym m p) mod 2 ^ 32)) by apply class_mod.
        eapply part_one; [assumption|exact (w_yname _ _ Qs)|exact A|constructor|reflexivity| |].
        -- apply sym_basic; [exact Qs|exact SB|now rewrite NC|reflexivity|reflexivity].
        -- intros T HT. constructor.
      * rewrite Rc, zlen_app. unfold zlen at 2. cbn [length]. lia.
Qed.
