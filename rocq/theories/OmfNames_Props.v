(** C12, C14, C37: names, externals, communals and publics in OMF modules. *)
From Verif Require Import Base OmfRec_Model OmfRec_Spec OmfRec_Proofs OmfNames_Model OmfNames_Spec OmfNames_Proofs
  OmfComdef_Proofs OmfExtdef_Proofs OmfPubdef_Proofs.

(** C12, names.  Whatever the names are and however many records are needed,
    a reader of the written bytes gets all names in order behind the empty
    name, and the index given to each name is the index of that name. *)
Theorem C12_lnames : forall cs q recs idxs si,
  Forall name_ok q -> omf_write_lnames cs q = (recs, idxs, si) ->
  exists bytes vs,
    omf_write_records recs = Ok bytes /\ read_views bytes = Some vs /\
    lname_table vs = Some ([] :: map (text cs) q) /\
    Forall (fun r => zlen (r_data r) <= 1021) recs /\
    length idxs = length q /\
    (forall k n i, nth_error q k = Some n -> nth_error idxs k = Some i ->
       2 <= i /\ nth_error ([] :: map (text cs) q) (Z.to_nat (i - 1)) = Some (text cs n)) /\
    si = zlen ([] :: map (text cs) q).
Proof. exact lnames_correct. Qed.
Print Assumptions C12_lnames.

(** C12, externals.  A reader of the written bytes finds exactly the alternate
    names (each once) and the non-weak, non-communal externals; every external
    got the index of the entry with its own name; every weak-external comment
    pairs the entry of the external with the entry of its alternate name. *)
Theorem C12_externals : forall exts st,
  NoDup exts -> (forall i, name_ok (s_name (st i))) -> 2 * zlen exts + 1 < 2 ^ 15 ->
  (forall i, In i exts -> s_external (st i) = true) ->
  (forall i a, In i exts -> s_iscomm (st i) = false -> s_altname (st i) = Some a ->
     s_weak (st i) = false /\ s_included (st a) = false) ->
  exists recs st' index' tbl wt alt bytes vs,
    omf_write_extdef exts st = Ok (recs, st', index') /\
    omf_write_records recs = Ok bytes /\ read_views bytes = Some vs /\
    external_table vs = Some tbl /\
    tbl = map (fun i => Ext (s_name (st i)))
              (alt ++ filter (fun i => negb (s_iscomm (st i) || s_weak (st i))) exts) /\
    NoDup alt /\
    (forall a, In a alt <-> exists i, In i exts /\ s_iscomm (st i) = false /\ s_altname (st i) = Some a) /\
    index' = 1 + zlen tbl /\
    (forall i, In i exts -> s_iscomm (st i) = false -> s_weak (st i) = false ->
       1 <= s_idx1 (st' i) /\ nth_error tbl (Z.to_nat (s_idx1 (st' i) - 1)) = Some (Ext (s_name (st i)))) /\
    weak_table vs = Some wt /\
    Forall2 (fun i wd => exists a, s_altname (st i) = Some a /\
        1 <= fst wd /\ nth_error tbl (Z.to_nat (fst wd - 1)) = Some (Ext (s_name (st i))) /\
        1 <= snd wd /\ nth_error tbl (Z.to_nat (snd wd - 1)) = Some (Ext (s_name (st a))))
      (filter (fun i => negb (s_iscomm (st i)) && match s_altname (st i) with Some _ => true | None => false end) exts) wt.
Proof.
  intros exts st ND NM BD EX AL.
  destruct (extdef_correct exts st ND NM BD EX AL) as
    (recs & st' & index' & tbl & wt & alt & E & RO & RL & T & TE & NA & AI & IX & SM & ID & WT & WF).
  destruct (records_readable recs RO) as (bytes & W & R); [eapply Forall_impl; [|exact RL]; cbn beta; intros; lia|].
  exists recs, st', index', tbl, wt, alt, bytes, (map meaning recs).
  repeat (split; [assumption|]). exact WF.
Qed.
Print Assumptions C12_externals.

(** C12, externals followed by communals: the complete numbering, when the
    communals fit one COMDEF record.  Missing from the full claim: several
    COMDEF records, for which the numbering is wrong (next theorem). *)
Theorem C12_communals_one_record_partial : forall exts st index,
  NoDup exts -> Forall (fun i => s_iscomm (st i) = true -> comm_ok (st i)) exts ->
  0 <= index -> index + 2 * zlen exts + 1 < 2 ^ 16 ->
  exists recs st' index' bytes vs tbl,
    omf_write_comdef exts st index = Ok (recs, st', index') /\
    omf_write_records recs = Ok bytes /\ read_views bytes = Some vs /\
    external_table vs = Some tbl /\
    tbl = map (fun i => Com (s_name (st i)) (comm_of (st i))) (filter (fun i => s_iscomm (st i)) exts) /\
    (forall i, s_iscomm (st i) = false -> st' i = st i) /\
    (length recs = 1%nat -> forall i, In i exts -> s_iscomm (st i) = true ->
       index <= s_idx1 (st' i) /\
       nth_error tbl (Z.to_nat (s_idx1 (st' i) - index)) = Some (Com (s_name (st i)) (comm_of (st i)))).
Proof.
  intros exts st index ND OK I1 I2.
  destruct (comdef_correct exts st index ND OK I1 I2) as
    (recs & st' & index' & bytes & vs & E & W & R & VS & T & RO & RL & SM & OUT & IDX).
  exists recs, st', index', bytes, vs, (map (com_entry st) (coms st exts)).
  split; [exact E|]. split; [exact W|]. split; [exact R|]. split; [exact T|]. split; [reflexivity|].
  split; [exact OUT|].
  intros L1 i I C.
  assert (IN : In i (coms st exts)) by (apply filter_In; auto).
  apply In_nth_error in IN as [k K].
  assert (KL : (k < length (coms st exts))%nat) by (apply nth_error_Some; congruence).
  destruct recs as [|r [|r2 recs]]; try discriminate L1.
  specialize (IDX 0%nat k i K). rewrite IDX.
  - split; [lia|]. replace (Z.to_nat (index + Z.of_nat k + Z.of_nat 0 - index)) with k by lia.
    rewrite (map_nth_error _ _ _ K). reflexivity.
  - exists [], (map (com_entry st) (coms st exts)). split; [reflexivity|]. split.
    + cbn [firstn]. rewrite <- VS. exact T.
    + rewrite map_length. cbn [length]. lia.
Qed.
Print Assumptions C12_communals_one_record_partial.

(** The exact number given to each communal: one more than its table index
    for every COMDEF record in front of its own. *)
Theorem C12_communal_numbering : forall exts st index,
  NoDup exts -> Forall (fun i => s_iscomm (st i) = true -> comm_ok (st i)) exts ->
  0 <= index -> index + 2 * zlen exts + 1 < 2 ^ 16 ->
  exists recs st' index' tbl,
    omf_write_comdef exts st index = Ok (recs, st', index') /\
    external_table (map meaning recs) = Some tbl /\
    tbl = map (fun i => Com (s_name (st i)) (comm_of (st i))) (filter (fun i => s_iscomm (st i)) exts) /\
    forall j k i, nth_error (filter (fun i => s_iscomm (st i)) exts) k = Some i ->
      (exists a b, external_table (map meaning (firstn j recs)) = Some a /\
                   external_table (map meaning (firstn (S j) recs)) = Some b /\
                   (length a <= k < length b)%nat) ->
      s_idx1 (st' i) = index + Z.of_nat k + Z.of_nat j.
Proof.
  intros exts st index ND OK I1 I2.
  destruct (comdef_correct exts st index ND OK I1 I2) as
    (recs & st' & index' & bytes & vs & E & W & R & VS & T & RO & RL & SM & OUT & IDX).
  exists recs, st', index', (map (com_entry st) (coms st exts)).
  split; [exact E|]. split; [rewrite <- VS; exact T|]. split; [reflexivity|]. exact IDX.
Qed.
Print Assumptions C12_communal_numbering.

(** a symbol table with the given symbols; all others are unused *)
Definition no_sym : sym :=
  {| s_name := [63]; s_iscomm := false; s_weak := false; s_external := false; s_isfar := false; s_altname := None;
     s_included := false; s_idx1 := 0; s_idx2 := 0; s_varsize := 0; s_total_size := 0; s_total_length := 0 |}.
Definition tab (l : list sym) : store := fun i => nth i l no_sym.
Definition ext_sym (n : list Z) (alt : option nat) : sym :=
  {| s_name := n; s_iscomm := false; s_weak := false; s_external := true; s_isfar := false; s_altname := alt;
     s_included := false; s_idx1 := 0; s_idx2 := 0; s_varsize := 0; s_total_size := 0; s_total_length := 0 |}.
Definition com_sym (n : list Z) (far : bool) (vs len : Z) : sym :=
  {| s_name := n; s_iscomm := true; s_weak := false; s_external := true; s_isfar := far; s_altname := None;
     s_included := false; s_idx1 := 0; s_idx2 := 0; s_varsize := vs; s_total_size := vs * len; s_total_length := len |}.

(** Finding: with communals filling more than one COMDEF record the index of
    the first communal of the second record is the index of its successor. *)
Definition five_communals : list sym :=
  map (fun c => com_sym (repeat c 254) false 4 1) [65; 66; 67; 68; 69].
Theorem C12_communals_many_records_refuted :
  exists recs st' index' tbl,
    omf_write_comdef (seq 0 5) (tab five_communals) 1 = Ok (recs, st', index') /\ length recs = 2%nat /\
    external_table (map meaning recs) = Some tbl /\ length tbl = 5%nat /\
    s_idx1 (st' 3%nat) = 5 /\
    nth_error tbl (Z.to_nat (s_idx1 (st' 3%nat) - 1)) = Some (Com (repeat 69 254) (Near 4)) /\
    s_name (st' 3%nat) = repeat 68 254 /\ nth_error tbl (Z.to_nat (s_idx1 (st' 4%nat) - 1)) = None.
Proof.
  remember (omf_write_comdef (seq 0 5) (tab five_communals) 1) as r eqn:E.
  destruct r as [[[recs st'] index']| |]; [|vm_compute in E; discriminate|vm_compute in E; discriminate].
  exists recs, st', index'.
  assert (X : Ok (length recs, external_table (map meaning recs), s_idx1 (st' 3%nat), s_idx1 (st' 4%nat), s_name (st' 3%nat)) =
    Ok (2%nat, Some (map (fun c => Com (repeat c 254) (Near 4)) [65; 66; 67; 68; 69]), 5, 6, repeat 68 254)).
  { transitivity (bindr (omf_write_comdef (seq 0 5) (tab five_communals) 1)
      (fun '(recs, st', _) => Ok (length recs, external_table (map meaning recs), s_idx1 (st' 3%nat), s_idx1 (st' 4%nat), s_name (st' 3%nat)))).
    - rewrite <- E. reflexivity.
    - clear E. vm_compute. reflexivity. }
  assert (OI : forall (A : Type) (x y : A), Ok x = Ok y -> x = y) by (intros ? ? ? Q; injection Q; auto).
  apply OI in X. apply pair_equal_spec in X as [X X5]. apply pair_equal_spec in X as [X X4].
  apply pair_equal_spec in X as [X X3]. apply pair_equal_spec in X as [X1 X2].
  eexists. split; [reflexivity|]. split; [exact X1|]. split; [exact X2|]. rewrite X3, X4, X5.
  split; [reflexivity|]. split; [reflexivity|]. split; [reflexivity|]. split; [reflexivity|]. reflexivity.
Qed.
Print Assumptions C12_communals_many_records_refuted.

(** the hypotheses of C12_externals are met by four externals, two of them
    with the same alternate name *)
Example externals_demo :
  let st := tab [ext_sym [65] None; ext_sym [66] (Some 4%nat); ext_sym [67] (Some 4%nat); com_sym [68] true 2 3; ext_sym [69] None] in
  bindr (omf_write_extdef (seq 0 4) st) (fun '(recs, st', index') =>
    Ok (external_table (map meaning recs), weak_table (map meaning recs), index',
        map (fun i => s_idx1 (st' i)) (seq 0 4)))
  = Ok (Some [Ext [69]; Ext [65]; Ext [66]; Ext [67]], Some [(3, 1); (4, 1)], 5, [2; 3; 4; 0]).
Proof. vm_compute. reflexivity. Qed.
Example externals_hyp :
  let st := tab [ext_sym [65] None; ext_sym [66] (Some 4%nat); ext_sym [67] (Some 4%nat); com_sym [68] true 2 3; ext_sym [69] None] in
  NoDup (seq 0 4) /\ 2 * zlen (seq 0 4) + 1 < 2 ^ 15 /\
  (forall i, In i (seq 0 4) -> s_external (st i) = true) /\
  (forall i a, In i (seq 0 4) -> s_iscomm (st i) = false -> s_altname (st i) = Some a ->
     s_weak (st i) = false /\ s_included (st a) = false).
Proof.
  cbv zeta. split; [apply seq_NoDup|]. split; [reflexivity|]. split.
  - intros i [<-|[<-|[<-|[<-|[]]]]]; reflexivity.
  - intros i a [<-|[<-|[<-|[<-|[]]]]] C A; cbn in *; try discriminate; injection A as <-; split; reflexivity.
Qed.
Example lnames_demo :
  omf_write_lnames false [[95; 116]; [68]] = ([mk_rec CMD_LNAMES [0; 2; 95; 84; 1; 68]], [2; 3], 3).
Proof. vm_compute. reflexivity. Qed.

(** C14.  The length fields of COMDEF entries decode to the value for every
    32-bit value, and have the size the writer computed. *)
Theorem C14_comdef_number : forall v r, 0 <= v < 2 ^ 32 ->
  rd_comnum (put_comdef_number v ++ r) = Some (v, r) /\
  zlen (put_comdef_number v) = get_size_of_comdef_number v /\
  Forall is_byte (put_comdef_number v) /\ zlen (put_comdef_number v) <= 5.
Proof. exact comdef_number_roundtrip. Qed.
Print Assumptions C14_comdef_number.

(** C14.  The size a linker allocates for a communal is the size of the
    variable: near, element size times count; far, both factors. *)
Definition com_bytes (c : comm) : Z := match c with Near n => n | Far a b => a * b end.
Theorem C14_communal_sizes : forall exts st index,
  NoDup exts ->
  (forall i, In i exts -> s_iscomm (st i) = true ->
     name_ok (s_name (st i)) /\ 0 < s_varsize (st i) < 2 ^ 32 /\ 0 <= s_total_size (st i) < 2 ^ 32 /\
     0 < s_total_length (st i) < 2 ^ 32 /\ s_varsize (st i) * s_total_length (st i) < 2 ^ 32) ->
  0 <= index -> index + 2 * zlen exts + 1 < 2 ^ 16 ->
  exists recs st' index' bytes vs tbl,
    omf_write_comdef exts st index = Ok (recs, st', index') /\
    omf_write_records recs = Ok bytes /\ read_views bytes = Some vs /\ external_table vs = Some tbl /\
    Forall2 (fun i e => exists c, e = Com (s_name (st i)) c /\
               com_bytes c = s_varsize (st i) * s_total_length (st i) /\
               (s_isfar (st i) = true -> c = Far (s_total_length (st i)) (s_varsize (st i))) /\
               (s_isfar (st i) = false -> exists n, c = Near n))
      (filter (fun i => s_iscomm (st i)) exts) tbl.
Proof.
  intros exts st index ND OK I1 I2.
  assert (OK' : Forall (fun i => s_iscomm (st i) = true -> comm_ok (st i)) exts).
  { apply Forall_forall. intros i I C. destruct (OK i I C) as (A & B & D & E & F). unfold comm_ok, comm_size.
    change (2 ^ 32) with 4294967296 in *. replace (s_varsize (st i) =? 0) with false by lia.
    unfold u32; change (2 ^ 32) with 4294967296. split; [exact A|]. split; [lia|]. split; [lia|]. split; [lia|]. lia. }
  destruct (comdef_correct exts st index ND OK' I1 I2) as
    (recs & st' & index' & bytes & vs & E & W & R & VS & T & RO & RL & SM & OUT & IDX).
  exists recs, st', index', bytes, vs, (map (com_entry st) (coms st exts)).
  split; [exact E|]. split; [exact W|]. split; [exact R|]. split; [exact T|].
  unfold coms. clear - OK. induction exts as [|i l IH]; cbn [filter map]; [constructor|].
  destruct (s_iscomm (st i)) eqn:C; [|apply IH; intros; apply OK; [right|]; assumption].
  cbn [map]. constructor; [|apply IH; intros; apply OK; [right|]; assumption].
  destruct (OK i (or_introl eq_refl) C) as (_ & V & _).
  exists (comm_of (st i)). split; [reflexivity|]. unfold comm_of, comm_size.
  replace (s_varsize (st i) =? 0) with false by lia.
  destruct (s_isfar (st i)); cbn [com_bytes].
  - split; [lia|]. split; [intros _; reflexivity|discriminate].
  - split; [lia|]. split; [discriminate|]. intros _. eexists. reflexivity.
Qed.
Print Assumptions C14_communal_sizes.
Example comdef_demo :
  put_comdef_number 127 = [127] /\ put_comdef_number 128 = [0x81; 128; 0] /\
  put_comdef_number 0x10000 = [0x84; 0; 0; 1] /\ put_comdef_number 0x1000000 = [0x88; 0; 0; 0; 1].
Proof. repeat split. Qed.

(** C37.  Publics: when the publics of COMDAT segments are queued first, a
    reader of the written bytes finds every other public once, in order, with
    its group, segment, name and offset; every COMDAT segment gets the index
    of a name record holding the name of one of its publics. *)
Theorem C37_publics : forall cs segs cds pls idx si buf,
  segs_ok segs -> Forall (comdat segs) cds -> (forall s, In s cds -> name_ok (p_name s)) ->
  Forall (plain segs) pls -> Forall pub_ok pls -> 0 <= si -> si + zlen cds < 2 ^ 16 ->
  exists recs idx' si' bytes vs lns,
    omf_write_pubdef cs segs (cds ++ pls) idx si buf = Ok (recs, idx', si') /\
    omf_write_records recs = Ok bytes /\ read_views bytes = Some vs /\
    public_table vs = Some (map (fun s =>
       (match p_seg s with
        | None => {| grp_idx := 0; seg_idx := 0; frame := 0 |}
        | Some g => {| grp_idx := sg_grpidx (segs g); seg_idx := sg_segidx (segs g); frame := 0 |}
        end, p_name s, p_offset s)) pls) /\
    Forall (fun r => zlen (r_data r) <= 1020) recs /\
    lname_table vs = Some lns /\ si' = si + zlen lns /\
    (forall g, idx g <> 0 -> idx' g = idx g) /\
    (forall g, (forall s, In s cds -> p_seg s <> Some g) -> idx' g = idx g) /\
    forall s g, In s cds -> p_seg s = Some g -> idx g = 0 ->
      exists s0, In s0 cds /\ p_seg s0 = Some g /\ si < idx' g /\
        nth_error lns (Z.to_nat (idx' g - si - 1)) = Some (text cs (p_name s0)).
Proof. exact pubdef_correct. Qed.
Print Assumptions C37_publics.

(** Finding: a COMDAT public behind another public overwrites the first
    bytes of the pending PUBDEF record, which then names something else. *)
Definition two_segs (g : nat) : seginfo :=
  {| sg_comdat := Nat.eqb g 1; sg_segidx := 1 + Z.of_nat g; sg_grpidx := 0 |}.
Definition pub (n : list Z) (g : nat) (o : Z) : pubsym :=
  {| p_name_size := zlen n; p_name := n; p_seg := Some g; p_offset := o |}.
Theorem C37_mixed_comdat_refuted :
  bindr (omf_write_pubdef true two_segs [pub [65; 66] 0 16; pub [88; 89] 1 0] (fun _ => 0) 1 [])
    (fun '(recs, _, _) => Ok (public_table (map meaning recs)))
  = Ok (Some [({| grp_idx := 0; seg_idx := 1; frame := 0 |}, [88; 89], 0)]).
Proof. vm_compute. reflexivity. Qed.
Print Assumptions C37_mixed_comdat_refuted.
Example publics_demo :
  bindr (omf_write_pubdef false two_segs [pub [120] 1 0; pub [65] 0 16; pub [66] 0 0x12345] (fun _ => 0) 7 [])
    (fun '(recs, idx, si) => Ok (public_table (map meaning recs), lname_table (map meaning recs), idx 1%nat, si))
  = Ok (Some [({| grp_idx := 0; seg_idx := 1; frame := 0 |}, [65], 16);
              ({| grp_idx := 0; seg_idx := 1; frame := 0 |}, [66], 0x12345)],
        Some [[88]], 8, 8).
Proof. vm_compute. reflexivity. Qed.
