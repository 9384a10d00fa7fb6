(** C15: the COFF string table and names. C16: symbol table and relocations. C17: section table and layout. *)
From Coq Require Import String Ascii Sorted Lia.
From Verif Require Import Base Crc_Model Crc_Spec Coff_Model Coff_Spec CoffStr_Proofs CoffHead_Proofs CoffTop_Proofs CoffTotal_Proofs.
Open Scope list_scope.

(** * C15 *)
(** names handed out one after the other *)
Fixpoint handed (l : longnames) (names : list (list Z)) : list Z * longnames :=
  match names with
  | [] => ([], l)
  | n :: ns => let '(o, l) := Coff_AllocString l n in let '(os, l) := handed l ns in (o :: os, l)
  end.
(** Every offset handed out is where the name is found; the table starts with its size. *)
Theorem C15_string_table : forall names os l, Forall (fun n => Forall (fun x => 1 <= x < 256) n) names -> handed {| l_size := 4; l_items := [] |} names = (os, l) ->
  zlen (string_table l) < 2 ^ 32 ->
  number 0 4 (string_table l) = Some (zlen (string_table l)) /\ Forall2 (fun o n => rd_string (string_table l) o = Some n) os names /\ StronglySorted Z.lt os /\
  zlen (string_table l) = 4 + fold_right (fun n k => zlen n + 1 + k) 0 names.
Proof.
  intros names os L F E B.
  assert (ZS : zlen (string_table L) = 4 + zlen (packed L)). { unfold string_table, packed. rewrite zlen_app. unfold zlen at 1. rewrite le_bytes_length. reflexivity. }
  assert (G : forall names l os, Forall (fun n => Forall (fun x => 1 <= x < 256) n) names -> ln_ok l -> handed l names = (os, L) -> ext l L /\ ln_ok L /\
     (final L -> Forall2 (fun o n => rd_string (string_table L) o = Some n) os names /\ Forall (fun o => 4 + zlen (packed l) <= o) os /\ StronglySorted Z.lt os /\
      zlen (packed L) = zlen (packed l) + fold_right (fun n k => zlen n + 1 + k) 0 names)).
  { clear. induction names as [|n ns IH]; intros l os F K E; cbn [handed] in E.
    - injection E as <- ->. split; [apply ext_refl|]. split; [assumption|]. intros _. split; [constructor|]. split; [constructor|]. split; [constructor|]. cbn [fold_right]. lia.
    - destruct (Coff_AllocString l n) as [o l1] eqn:A. destruct (handed l1 ns) as [os' l2] eqn:H. apply pair_equal_spec in E as [<- ->]. destruct (alloc_ok _ _ _ _ K A) as [K1 X1].
      destruct (IH _ _ (Forall_inv_tail F) K1 H) as (X2 & K2 & R). split; [eapply ext_trans; eassumption|]. split; [assumption|]. intros FL. destruct (R FL) as (R1 & R2 & R3 & R4).
      destruct (alloc_read _ _ _ _ _ K A X2 FL (Forall_inv F)) as (Q1 & Q2 & Q3 & Q4). assert (zlen (packed l1) = zlen (packed l) + zlen n + 1).
      { unfold Coff_AllocString in A. injection A as _ <-. unfold packed. cbn [l_items]. rewrite flat_map_app, zlen_app. cbn [flat_map]. rewrite app_nil_r, zlen_app. change (zlen [0]) with 1. lia. }
      pose proof (zlen_nonneg n). split; [constructor; assumption|]. split; [constructor; [lia|eapply Forall_impl; [|exact R2]; intros; cbv beta in *; lia]|]. split; [constructor; [assumption|eapply Forall_impl; [|exact R2]; intros; cbv beta in *; lia]|].
      cbn [fold_right]. lia. }
  assert (K0 : ln_ok {| l_size := 4; l_items := [] |}) by reflexivity. destruct (G _ _ _ F K0 E) as (X & K & R). assert (FL : final L) by (split; [assumption|lia]).
  destruct (R FL) as (R1 & _ & R3 & R4). change (zlen (packed {| l_size := 4; l_items := [] |})) with 0 in R4. split; [now apply string_table_size|]. split; [assumption|]. split; [assumption|]. lia.
Qed.
Print Assumptions C15_string_table.
(** Segments are renamed: _TEXT, _DATA, CONST and _BSS, alone or with a $ suffix; an alias is taken as it is. *)
Theorem C15_section_name : forall o s, match s_alias s with Some a => fst (section_name o s) = a | None => new_name (djgpp o) (s_name s) (fst (section_name o s)) end.
Proof. intros o s. unfold section_name. destruct (s_alias s); [reflexivity|]. apply convert_spec. Qed.
Print Assumptions C15_section_name.
Theorem C15_new_name_unique : forall dj name a b, new_name dj name a -> new_name dj name b -> a = b.
Proof.
  assert (P : forall (s s' r r' : list Z), In s [[95; 84; 69; 88; 84]; [95; 68; 65; 84; 65]; [67; 79; 78; 83; 84]] -> In s' [[95; 84; 69; 88; 84]; [95; 68; 65; 84; 65]; [67; 79; 78; 83; 84]] -> s ++ r = s' ++ r' -> s = s' /\ r = r').
  { intros s s' r r' H H' E. cbn [In] in H, H'. intuition subst; cbn [app] in E; try discriminate; congruence. }
  assert (IN : forall src dst : list Z, In (src, dst) [([95; 84; 69; 88; 84], [46; 116; 101; 120; 116]); ([95; 68; 65; 84; 65], [46; 100; 97; 116; 97]); ([67; 79; 78; 83; 84], [46; 114; 100; 97; 116; 97])] -> In src [[95; 84; 69; 88; 84]; [95; 68; 65; 84; 65]; [67; 79; 78; 83; 84]]).
  { intros src dst H. cbn [In] in *. intuition match goal with H : (_, _) = (_, _) |- _ => apply pair_equal_spec in H as [H _] end; auto. }
  assert (NB : forall src r : list Z, In src [[95; 84; 69; 88; 84]; [95; 68; 65; 84; 65]; [67; 79; 78; 83; 84]] -> src ++ r <> [95; 66; 83; 83]).
  { intros src r H E. cbn [In] in H. intuition subst; discriminate. }
  intros dj name a b [(s & d & r & H & -> & R & ->)|[[-> ->]|(-> & N & U)]] [(s' & d' & r' & H' & E & R' & ->)|[[E ->]|(-> & N' & U')]].
  - destruct (P s s' r r') as [-> ->]; [eapply IN; eassumption|eapply IN; eassumption|assumption|]. assert (d = d') as ->; [|reflexivity]. cbn [In] in H, H'. intuition congruence.
  - exfalso. eapply NB; [eapply IN; exact H|exact E].
  - exfalso. destruct (U' s r (IN _ _ H) eq_refl) as [U1 U2]. destruct R as [->|[q ->]]; [now apply U1|now apply (U2 q)].
  - exfalso. eapply NB; [eapply IN; exact H'|symmetry; exact E].
  - reflexivity.
  - exfalso. now apply N'.
  - exfalso. destruct (U s' r' (IN _ _ H') E) as [U1 U2]. destruct R' as [->|[q ->]]; [now apply U1|now apply (U2 q)].
  - exfalso. now apply N.
  - reflexivity.
Qed.
Print Assumptions C15_new_name_unique.
(** All names in the file, short or long, are those asked for. *)
Theorem C15_file : forall m f, module_ok m -> coff_write_module m = Ok f -> zlen f < 2 ^ 32 ->
  exists o, rd_object f = Some o /\ map v_name (o_secs o) = map (fun s => fst (section_name (m_opt m) s)) (m_secs m) /\ map (fun ie => e_name (snd ie)) (o_syms o) = map x_name (asked_symbols m).
Proof.
  intros m f M E B. destruct (module_file m f M E B) as (o & R & _ & (L & S) & EO & _). exists o. split; [exact R|]. split.
  - clear -L S. remember (m_secs m) as ss eqn:Q. clear Q. revert L S. generalize (o_secs o). intros vs L S.
    assert (S' : forall k s, nth_error ss k = Some s -> exists v, nth_error vs k = Some v /\ v_name v = fst (section_name (m_opt m) s)) by (intros k s K; destruct (S k s K) as (v & V & W); exists v; split; [exact V|apply W]).
    clear S. revert vs L S'. induction ss as [|s ss IH]; intros [|v vs] L S'; try discriminate; [reflexivity|]. cbn [map]. f_equal.
    + destruct (S' O s eq_refl) as (w & W & N). cbn in W. injection W as <-. exact N.
    + apply IH; [now injection L|]. intros k t K. exact (S' (S k) t K).
  - clear -EO. induction EO as [|x ie xs T H F IH]; [reflexivity|]. cbn [map]. f_equal; [|exact IH]. destruct ie as [i e]. apply H.
Qed.
Print Assumptions C15_file.

(** * C16 *)
(** The symbol table has the symbols asked for, in that order, with their auxiliary records; each relocation holds
    the index of the entry of its symbol, and so do the line numbers, the weak externals, the .file chain and .sxdata. *)
Theorem C16_object : forall m f, module_ok m -> coff_write_module m = Ok f -> zlen f < 2 ^ 32 ->
  exists o, rd_object f = Some o /\ Forall2 (entry_ok m f (o_syms o)) (asked_symbols m) (o_syms o) /\ chain (filter is_file (o_syms o)) /\
  forall k s, nth_error (m_secs m) k = Some s -> exists v, nth_error (o_secs o) k = Some v /\
    Forall2 (reloc_ok m (o_syms o) (s_use64 s)) (needs s) (v_relocs v) /\ lines_ok m (o_syms o) 0 (asked_lines m s) (v_lines v) /\
    (is_sx m k = true -> uninit s || (s_max s =? 0) = false -> exists d, v_data v = Some d /\ handlers_ok m (o_syms o) d).
Proof.
  intros m f M E B. destruct (module_file m f M E B) as (o & R & _ & (L & S) & EO & C & _). exists o. split; [exact R|]. split; [exact EO|]. split; [exact C|].
  intros k s K. destruct (S k s K) as (v & V & _ & _ & _ & D & RE & LI). exists v. split; [exact V|]. split; [exact RE|]. split; [exact LI|]. intros X U. rewrite U in D. destruct D as (d & D1 & D2). exists d. rewrite X in D2. now split.
Qed.
Print Assumptions C16_object.
(** ... and there is a file for all modules with supported fixups. *)
Theorem C16_total : forall m, module_ok m -> Forall supported (m_secs m) -> exists f, coff_write_module m = Ok f.
Proof. exact module_total. Qed.
Print Assumptions C16_total.
(** The kinds of symbols: skipped (weak and not referenced), weak externals, with line numbers. *)
Theorem C16_kinds : forall m y o, (skipped y = true <-> y_comm y = false /\ y_weak y = true) /\ (weak_ext y = true <-> y_comm y = false /\ exists a, y_alt y = Some a) /\
  (lines_on o = true <-> line_numbers o = true /\ debug4 o = false) /\ (is_internal y = true <-> y_state y = Internal) /\
  (forall s, num_relocs s = zlen (needs s)) /\ (forall f, is_none f = true <-> f_ref f = RNone) /\ (forall n, (n < length (m_syms m))%nat -> nth_error (m_syms m) n = Some (sym m n)) /\
  (forall n name, nth_error (m_files m) (Z.to_nat n) = Some name -> file_name m n = name).
Proof.
  intros m y o. unfold skipped, weak_ext, lines_on, is_internal, is_none, sym, file_name. split; [|split; [|split; [|split; [|split; [|split; [|split]]]]]].
  - destruct (y_comm y), (y_weak y); cbn; intuition congruence.
  - destruct (y_comm y), (y_alt y); cbn; (split; [intros H; first [discriminate|split; [reflexivity|eexists; reflexivity]]|intros [H1 [a H2]]; congruence]).
  - destruct (line_numbers o), (debug4 o); cbn; intuition congruence.
  - destruct (y_state y); intuition congruence.
  - reflexivity.
  - intros f. destruct (f_ref f); intuition congruence.
  - intros n L. apply nth_error_nth'. exact L.
  - intros n name E. now apply nth_error_nth.
Qed.
Print Assumptions C16_kinds.

(** * C17 *)
(** The section table tells where the bytes are: name, flags, size; the data is the contents of the section. The parts of
    the file - headers, data, relocations, line numbers, symbols, strings - don't overlap. *)
Theorem C17_sections : forall m f, module_ok m -> coff_write_module m = Ok f -> zlen f < 2 ^ 32 ->
  exists o, rd_object f = Some o /\ o_machine o = (if m_use64 m then 0x8664 else 0x14c) /\ length (o_secs o) = length (m_secs m) /\
  ForallOrdPairs apart (regions o) /\
  forall k s, nth_error (m_secs m) k = Some s -> exists v, nth_error (o_secs o) k = Some v /\
    v_char v = flags s /\ v_size v = raw_size s /\ length (v_relocs v) = length (needs s) /\ length (v_lines v) = length (asked_lines m s) /\
    (if uninit s || (s_max s =? 0) then v_data v = None else exists d, v_data v = Some d /\ zlen d = s_max s /\ (is_sx m k = false -> d = resolved s)).
Proof.
  intros m f M E B. destruct (module_file m f M E B) as (o & R & MA & (L & S) & EO & C & AP). exists o. split; [exact R|]. split; [exact MA|]. split; [exact L|]. split; [exact AP|].
  intros k s K. destruct (S k s K) as (v & V & _ & CH & SZ & D & RE & LI). exists v. split; [exact V|]. split; [exact CH|]. split; [exact SZ|]. split; [clear -RE; induction RE; [reflexivity|cbn [Datatypes.length]; now f_equal]|]. split.
  { clear -LI. revert LI. generalize 0. generalize (v_lines v). induction (asked_lines m s) as [|[n l|n l] q IH]; intros [|[i w] vs] start H; cbn [lines_ok] in H; try destruct H; try reflexivity; cbn [Datatypes.length]; f_equal; eapply IH; apply H0. }
  assert (ZM : 0 <= s_max s < 2 ^ 32). { destruct (w_secs _ M) as (WS & _). rewrite Forall_forall in WS. pose proof (w_size _ _ (WS s (nth_error_In _ _ K))). lia. }
  destruct (uninit s || (s_max s =? 0)) eqn:U; [exact D|]. destruct D as (d & D1 & D2). exists d. split; [exact D1|]. split.
  - assert (ZD : zlen d = v_size v).
    { clear -R V D1. unfold rd_object in R. destruct (slice 0 20 f); [|discriminate]. destruct (slice _ _ f); [|discriminate]. destruct (rd_symbols _ _ _ _); [|discriminate]. destruct (rd_table f 20 _ 40) as [hs|]; [|discriminate].
      destruct (rd_all f _ hs) as [vs|] eqn:A; [|discriminate]. destruct (field 16 2 l =? 0); [|discriminate]. injection R as <-. cbn [o_secs] in V. revert vs A k V. induction hs as [|h hs IH]; intros vs A k V; cbn [rd_all] in A.
      - injection A as <-. destruct k; discriminate.
      - destruct (rd_section f _ h) as [w|] eqn:W; [|discriminate]. destruct (rd_all f _ hs) as [ws|]; [|discriminate]. injection A as <-. destruct k as [|k]; cbn [nth_error] in V; [|eapply IH; [reflexivity|exact V]]. injection V as ->.
        unfold rd_section in W. destruct (rd_section_name _ _); [|discriminate]. cbv zeta in W. destruct (field 20 4 h =? 0).
        + destruct (if (_ : bool) then number _ 4 f else _); [|discriminate]. destruct (rd_table f _ _ 10); [|discriminate]. destruct (rd_table f _ _ 6); [|discriminate]. injection W as <-. discriminate D1.
        + destruct (slice (field 20 4 h) (field 16 4 h) f) as [b|] eqn:SL; [|discriminate]. destruct (if (_ : bool) then number _ 4 f else _); [|discriminate]. destruct (rd_table f _ _ 10); [|discriminate]. destruct (rd_table f _ _ 6); [|discriminate]. injection W as <-.
          cbn [v_data v_size] in *. injection D1 as <-. unfold slice in SL. destruct (Z.leb_spec 0 (field 20 4 h)); [|discriminate]. destruct (Z.leb_spec 0 (field 16 4 h)); [|discriminate]. cbn [andb] in SL.
          destruct (Z.leb_spec (field 20 4 h + field 16 4 h) (zlen f)); [|discriminate]. injection SL as <-. unfold zlen in *. rewrite firstn_length, skipn_length. lia. }
    rewrite ZD, SZ. unfold raw_size. apply orb_false_iff in U as [U _]. now rewrite U.
  - intros X. now rewrite X in D2.
Qed.
Print Assumptions C17_sections.

(** * Examples *)
Definition str (s : string) : list Z := map (fun c => Z.of_N (N_of_ascii c)) (list_ascii_of_string s).
Definition opts : options := {| safeseh := false; debug4 := false; line_numbers := true; no_file_entry := false; no_section_aux := false; no_static_procs := false; djgpp := false |}.
Definition sec (name : string) (type max : Z) (buf : option (list Z)) (fix_ : list fixup) (lines : option (list lineitem)) : section :=
  {| s_name := str name; s_alias := None; s_info := false; s_drectve := false; s_align := 4; s_comdat := 0; s_comdat_number := 0; s_type := type; s_readonly := false; s_const := false; s_stack := false;
     s_written := match buf with Some _ => max | None => 0 end; s_char := 0; s_use64 := false; s_max := max; s_start_loc := 0; s_buf := buf; s_pad := 0; s_fix := fix_; s_lines := lines |}.
Definition symb (name : string) (s : state) (seg : option nat) (public proc : bool) (offset total file : Z) : symbol :=
  {| y_name := str name; y_state := s; y_seg := seg; y_public := public; y_proc := proc; y_near := true; y_comm := false; y_weak := false; y_alt := None; y_offset := offset; y_total := total; y_file := file; y_included := false |}.
Definition modul (o : options) (ss : list section) (ys : list symbol) (ext procs pub : list nat) : module :=
  {| m_opt := o; m_use64 := false; m_time := 0x12345678; m_dot_file := str "a.asm"; m_files := [str "a.asm"; str "b.inc"]; m_secs := ss; m_syms := ys; m_ext := ext; m_procs := procs; m_pub := pub;
     m_alias := []; m_safeseh := []; m_sx := None; m_ias := repeat 0 18; m_ish := repeat 0 8 |}.
(** a procedure with line numbers that calls an external symbol, a section with a long name that holds the address of a private label, uninitialised data *)
Definition example : module :=
  modul opts
    [sec "_TEXT" 1 7 (Some [0xe8; 0; 0; 0; 0; 0xc3; 0x90]) [{| f_type := FIX_RELOFF32; f_locofs := 1; f_addbytes := 4; f_ref := RSym 1 |}] (Some [LProc 0 10; LLine 11 5; LLine 10 6]);
     sec "pointers$z" 2 8 (Some [4; 0; 0; 0; 0; 0; 0; 0]) [{| f_type := FIX_OFF32; f_locofs := 0; f_addbytes := 0; f_ref := RSym 2 |}; {| f_type := FIX_OFF32; f_locofs := 4; f_addbytes := 0; f_ref := RSec 2 |}] None;
     sec "_BSS" 3 16 None [] None]
    [symb "_main" Internal (Some 0%nat) true true 0 7 1; symb "_a_long_name" External None true true 0 0 0; symb "lab" Internal (Some 1%nat) false false 4 4 0]
    [1%nat] [0%nat] [0%nat].
Lemma name_okb n : negb (match n with [] => true | _ => false end) && forallb (fun x => (1 <=? x) && (x <? 256)) n = true -> name_ok n.
Proof.
  intros H. apply andb_true_iff in H as [H1 H2]. split; [now destruct n|]. apply Forall_forall. intros x X. rewrite forallb_forall in H2. specialize (H2 x X). lia.
Qed.
Lemma bytesb n : forallb (fun x => (0 <=? x) && (x <? 256)) n = true -> Forall is_byte n.
Proof. intros H2. apply Forall_forall. intros x X. rewrite forallb_forall in H2. specialize (H2 x X). unfold is_byte. lia. Qed.
Lemma charsb n : forallb (fun x => (1 <=? x) && (x <? 256)) n = true -> Forall (fun x => 1 <= x < 256) n.
Proof. intros H2. apply Forall_forall. intros x X. rewrite forallb_forall in H2. specialize (H2 x X). lia. Qed.
Ltac num := unfold u32; vm_compute; intuition congruence.
Ltac secwf := split; [split; [apply name_okb; reflexivity|vm_compute; congruence]|num|try exact Logic.I; try (split; [reflexivity|apply bytesb; reflexivity])|
  split; [left; num|split; [num|split; [num|split; [num|num]]]]|intros; reflexivity|try (intros [H|[H H']]; vm_compute in H; congruence)|vm_compute; try congruence; intros _; split; reflexivity|vm_compute; congruence| |].
Ltac symwf := split; [apply name_okb; reflexivity|num|vm_compute; try exact Logic.I; repeat constructor|vm_compute; congruence|exact Logic.I|intros _; split; [apply charsb; reflexivity|num]].
Example C16_example : module_ok example /\ Forall supported (m_secs example) /\ exists f, coff_write_module example = Ok f /\ zlen f = 585.
Proof.
  split; [|split].
  - split.
    + split; [|split; [discriminate|num]]. repeat apply Forall_cons; [| | |apply Forall_nil].
      * secwf; [split; [|num]; repeat apply Forall_cons; [|apply Forall_nil]|split; [reflexivity|split; [num|split; [|exact Logic.I]]]; repeat apply Forall_cons; try apply Forall_nil].
        -- split; [num|]. split; [num|]. split; [discriminate|]. cbn. split; [now left|reflexivity].
        -- cbn. now left.
        -- num.
        -- num.
      * secwf; [split; [|num]; repeat apply Forall_cons; try apply Forall_nil|exact Logic.I].
        -- split; [num|]. split; [num|]. split; [discriminate|]. cbn. discriminate.
        -- split; [num|]. split; [num|]. split; [discriminate|]. cbn. repeat constructor.
      * secwf; [intros _; reflexivity|split; [constructor|num]|exact Logic.I].
    + repeat apply Forall_cons; [symwf|symwf|symwf|apply Forall_nil].
    + repeat apply Forall_cons; try apply Forall_nil; cbn; repeat constructor.
    + repeat constructor.
    + split; [repeat constructor|]. cbn. repeat constructor. now intros [].
    + intros _ n P Q. exfalso. do 3 (destruct n as [|n]; [vm_compute in P, Q; discriminate|]). unfold private, sym in P. rewrite nth_overflow in P by (cbn; lia). discriminate.
    + constructor.
    + cbn. repeat constructor. now intros [].
    + intros H. now destruct H.
    + split; [apply charsb; reflexivity|num].
    + num.
    + split; [reflexivity|split; [reflexivity|split; apply bytesb; reflexivity]].
  - repeat apply Forall_cons; [| | |apply Forall_nil].
    all: split; [|repeat apply Forall_cons; try apply Forall_nil; intros _|vm_compute; congruence]; try (eexists; unfold asked_type; cbn; tauto).
    all: repeat apply Forall_cons; try apply Forall_nil; cbn; discriminate.
  - eexists. split; [vm_compute; reflexivity|vm_compute; reflexivity].
Qed.
Example C17_example : match coff_write_module example with Ok f => match rd_object f with Some o =>
    map (fun ie => (fst ie, e_name (snd ie))) (o_syms o) =
      [(0, str ".file"); (2, str ".text"); (4, str "pointers$z"); (6, str ".bss"); (8, str "_a_long_name"); (9, str ".file"); (11, str "_main"); (13, str ".bf"); (15, str ".lf"); (16, str ".ef"); (18, str "lab")] /\
    map v_relocs (o_secs o) = [[(1, 8, 20)]; [(0, 18, 6); (4, 6, 6)]; []] /\ map v_lines (o_secs o) = [[(11, 0); (5, 1); (6, 0x7fff)]; []; []] /\
    map v_data (o_secs o) = [Some [0xe8; 0; 0; 0; 0; 0xc3; 0x90]; Some [4; 0; 0; 0; 0; 0; 0; 0]; None] /\ regions o = [(0, 140); (140, 7); (148, 10); (158, 18); (176, 8); (184, 20); (0, 0); (0, 0); (0, 0); (204, 342); (546, 39)]
  | None => False end | _ => False end.
Proof. vm_compute. repeat split; reflexivity. Qed.
Example C15_example : handed {| l_size := 4; l_items := [] |} [str "a_long_name"; str "b"; str "c_long_name"] = ([4; 16; 18], {| l_size := 30; l_items := [str "a_long_name"; str "b"; str "c_long_name"] |}).
Proof. reflexivity. Qed.

(** * What doesn't hold *)
Definition names_read (f : list Z) : option (list (list Z)) := match rd_object f with Some o => Some (map (fun ie => e_name (snd ie)) (o_syms o)) | None => None end.
(** -zls suppresses the auxiliary records of sections, but COMDATs get one; it is counted as a symbol. *)
Definition zls : options := {| safeseh := false; debug4 := false; line_numbers := false; no_file_entry := false; no_section_aux := true; no_static_procs := false; djgpp := false |}.
Definition comdat (n : Z) (s : section) : section :=
  {| s_name := s_name s; s_alias := s_alias s; s_info := s_info s; s_drectve := s_drectve s; s_align := s_align s; s_comdat := n; s_comdat_number := s_comdat_number s;
     s_type := s_type s; s_readonly := s_readonly s; s_const := s_const s; s_stack := s_stack s; s_written := s_written s; s_char := s_char s; s_use64 := s_use64 s; s_max := s_max s;
     s_start_loc := s_start_loc s; s_buf := s_buf s; s_pad := s_pad s; s_fix := s_fix s; s_lines := s_lines s |}.
Theorem C16_zls_refuted : exists m f, Forall supported (m_secs m) /\ coff_write_module m = Ok f /\ names_read f <> Some (map x_name (asked_symbols m)).
Proof.
  exists (modul zls [comdat 2 (sec "_TEXT" 1 1 (Some [0xc3]) [] None)] [symb "_main" Internal (Some 0%nat) true true 0 1 1] [] [0%nat] [0%nat]). eexists.
  split; [repeat constructor|]. split; [vm_compute; reflexivity|]. vm_compute. discriminate.
Qed.
Print Assumptions C16_zls_refuted.
(** Line numbers and -zld (no static procedures): a private procedure in another file gets a .file entry that isn't counted;
    the relocations behind have the wrong index. *)
Definition zld : options := {| safeseh := false; debug4 := false; line_numbers := true; no_file_entry := false; no_section_aux := false; no_static_procs := true; djgpp := false |}.
Theorem C16_static_refuted : exists m f o v i t, Forall supported (m_secs m) /\ coff_write_module m = Ok f /\ rd_object f = Some o /\ nth_error (o_secs o) 0 = Some v /\
  nth_error (v_relocs v) 0 = Some (1, i, t) /\ f_ref (nth 0 (flat_map s_fix (m_secs m)) {| f_type := 0; f_locofs := 0; f_addbytes := 0; f_ref := RNone |}) = RSym 0 /\ forall e, In (i, e) (o_syms o) -> e_name e <> y_name (sym m 0).
Proof.
  exists (modul zld [sec "_TEXT" 1 6 (Some [0xe8; 0; 0; 0; 0; 0xc3]) [{| f_type := FIX_RELOFF32; f_locofs := 1; f_addbytes := 4; f_ref := RSym 0 |}] (Some [])] [symb "_sub" Internal (Some 0%nat) false true 5 1 1] [] [0%nat] []).
  do 5 eexists. split. { apply Forall_cons; [|apply Forall_nil]. split; [repeat constructor; discriminate|repeat constructor; intros _; eexists; unfold asked_type; cbn; tauto|now intros []]. }
  split; [vm_compute; reflexivity|]. split; [vm_compute; reflexivity|]. split; [reflexivity|]. split; [vm_compute; reflexivity|]. split; [reflexivity|]. intros e H. cbn in H. repeat (destruct H as [H|H]; [apply pair_equal_spec in H as [H <-]; try discriminate H; discriminate|]). destruct H.
Qed.
Print Assumptions C16_static_refuted.
(** Initialised data in a segment of class BSS is only warned of: its fixups are counted in the section table but not written. *)
Theorem C17_bss_refuted : exists m f, Forall supported (m_secs m) /\ coff_write_module m = Ok f /\
  (forall o v1 v2, rd_object f = Some o -> nth_error (o_secs o) 1 = Some v2 -> nth_error (o_secs o) 0 = Some v1 -> v_data v2 <> Some [1; 2; 3; 4] /\ v_relocs v1 <> [(0, 2, 6)]) /\ exists o, rd_object f = Some o /\ length (o_secs o) = 2%nat.
Proof.
  exists (modul zls [sec "_BSS" 3 4 (Some [0; 0; 0; 0]) [{| f_type := FIX_OFF32; f_locofs := 0; f_addbytes := 0; f_ref := RSec 1 |}] None; sec "_DATA" 2 4 (Some [1; 2; 3; 4]) [] None] [symb "_x" Internal (Some 1%nat) true false 0 1 1] [] [] [0%nat]). eexists.
  split. { repeat apply Forall_cons; [| |apply Forall_nil]; (split; [repeat constructor; discriminate|repeat constructor; intros _; eexists; unfold asked_type; cbn; tauto|now intros []]). }
  split; [vm_compute; reflexivity|]. split; [|eexists; split; [vm_compute; reflexivity|reflexivity]]. intros o v1 v2 E E2 E1. vm_compute in E. injection E as <-. injection E1 as <-. injection E2 as <-. split; discriminate.
Qed.
Print Assumptions C17_bss_refuted.
(** A READONLY segment of class BSS has data according to the section table, but it isn't written: the next section is read at the wrong place. *)
Definition readonly (s : section) : section :=
  {| s_name := s_name s; s_alias := s_alias s; s_info := s_info s; s_drectve := s_drectve s; s_align := s_align s; s_comdat := s_comdat s; s_comdat_number := s_comdat_number s;
     s_type := s_type s; s_readonly := true; s_const := s_const s; s_stack := s_stack s; s_written := s_written s; s_char := s_char s; s_use64 := s_use64 s; s_max := s_max s;
     s_start_loc := s_start_loc s; s_buf := s_buf s; s_pad := s_pad s; s_fix := s_fix s; s_lines := s_lines s |}.
Theorem C17_readonly_refuted : exists m f o v, Forall supported (m_secs m) /\ coff_write_module m = Ok f /\ rd_object f = Some o /\ nth_error (o_secs o) 1 = Some v /\ v_data v <> Some [1; 2; 3; 4].
Proof.
  exists (modul zls [readonly (sec "_BSS" 3 4 None [] None); sec "_DATA" 2 4 (Some [1; 2; 3; 4]) [] None] [symb "_x" Internal (Some 1%nat) true false 0 1 1] [] [] [0%nat]). do 3 eexists.
  split; [repeat constructor; now intros []|]. split; [vm_compute; reflexivity|]. split; [vm_compute; reflexivity|]. split; [vm_compute; reflexivity|]. discriminate.
Qed.
Print Assumptions C17_readonly_refuted.
(** A COMDAT that starts behind an ORG: the checksum reads behind the code buffer. *)
Definition started (n : Z) (s : section) : section :=
  {| s_name := s_name s; s_alias := s_alias s; s_info := s_info s; s_drectve := s_drectve s; s_align := s_align s; s_comdat := s_comdat s; s_comdat_number := s_comdat_number s;
     s_type := s_type s; s_readonly := s_readonly s; s_const := s_const s; s_stack := s_stack s; s_written := s_written s; s_char := s_char s; s_use64 := s_use64 s; s_max := s_max s + n;
     s_start_loc := n; s_buf := s_buf s; s_pad := s_pad s; s_fix := s_fix s; s_lines := s_lines s |}.
Theorem C17_comdat_refuted : exists m, coff_write_module m = UB /\ Forall (fun s => s_fix s = []) (m_secs m).
Proof. exists (modul opts [started 2 (comdat 2 (sec "_TEXT" 1 1 (Some [0xc3]) [] None))] [] [] [] []). split; [vm_compute; reflexivity|repeat constructor]. Qed.
Print Assumptions C17_comdat_refuted.
(** 65536 line numbers: the section table says that there are none. *)
Theorem C17_lines_refuted : exists s, zlen (asked_lines (modul opts [s] [] [] [] []) s) = 65536 /\ match section_header opts s 60 {| l_size := 4; l_items := [] |} (repeat 0 8) with Ok (h, _, _, fo, _) => (field 34 2 h =? 0) && (field 28 4 h =? 61) && (fo =? 61) | _ => false end = true.
Proof.
  exists (sec "_TEXT" 1 1 (Some [0xc3]) [] (Some (LProc 0 0 :: repeat (LLine 1 0) (Z.to_nat 65535)))). split; vm_compute; reflexivity.
Qed.
Print Assumptions C17_lines_refuted.
(** A section name behind the first ten million bytes of the string table: the header has only 7 digits. *)
Theorem C15_offset_refuted : exists l name, ln_ok l /\ digits (tl (fst (header_name l name (repeat 0 8)))) <> Some (l_size l).
Proof.
  exists {| l_size := 10 ^ 7; l_items := [repeat 65 (Z.to_nat (10 ^ 7 - 5))] |}, (str "a_long_name"). split; [|vm_compute; discriminate].
  unfold ln_ok, packed. cbn [l_size l_items flat_map]. rewrite app_nil_r, zlen_app. unfold zlen at 1. rewrite repeat_length, Z2Nat.id by lia. reflexivity.
Qed.
Print Assumptions C15_offset_refuted.
(** An alias that starts with a slash is taken for a reference to the string table. *)
Definition aliased (a : list Z) (s : section) : section :=
  {| s_name := s_name s; s_alias := Some a; s_info := s_info s; s_drectve := s_drectve s; s_align := s_align s; s_comdat := s_comdat s; s_comdat_number := s_comdat_number s;
     s_type := s_type s; s_readonly := s_readonly s; s_const := s_const s; s_stack := s_stack s; s_written := s_written s; s_char := s_char s; s_use64 := s_use64 s; s_max := s_max s;
     s_start_loc := s_start_loc s; s_buf := s_buf s; s_pad := s_pad s; s_fix := s_fix s; s_lines := s_lines s |}.
Theorem C15_slash_refuted : exists m f, coff_write_module m = Ok f /\ Forall supported (m_secs m) /\ rd_object f = None.
Proof. exists (modul zls [aliased (str "/abc") (sec "_TEXT" 1 1 (Some [0xc3]) [] None)] [] [] [] []). eexists. split; [vm_compute; reflexivity|]. split; [repeat constructor; now intros []|]. vm_compute. reflexivity. Qed.
Print Assumptions C15_slash_refuted.
