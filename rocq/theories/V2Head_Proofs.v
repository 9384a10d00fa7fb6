(** C39-C42: prefixes, REX, VEX and EVEX as generated are decoded with the fields that were put in. *)
From Coq Require Import String Ascii.
From Verif Require Import Base Mem_Model Mem_Spec V2_Model V2_Spec V2Bits_Proofs V2Row_Proofs.
Open Scope list_scope.

(** ** Prefixes *)
Lemma prefixes_stop p b t : prefix_byte b = false -> prefixes p (b :: t) = (p, b :: t).
Proof.
  intros H. unfold prefix_byte in H. cbn [existsb] in H. repeat (apply orb_false_elim in H as [? H]). cbn [prefixes].
  repeat match goal with X : (b =? _) = false |- _ => rewrite X; clear X end. cbn [orb].
  assert (E : seg_of_prefix b = None).
  { unfold seg_of_prefix. repeat match goal with X : (b =? _) = false |- _ => rewrite X end. reflexivity. }
  rewrite E. reflexivity.
Qed.
Definition rep_of (m1 : list Z) : Z := match m1 with [b] => if (b =? 0xF3) || (b =? 0xF2) then b else 0 | _ => 0 end.
Definition PF (aso oso : bool) (sp m1 : list Z) : list Z := (if aso then [0x67] else []) ++ (if oso then [0x66] else []) ++ sp ++ m1.
Definition seg_list (s : option Z) : list Z := match s with Some r => seg_byte r | None => [] end.
Definition the_pfx (aso oso : bool) (s : option Z) (m1 : list Z) : pfx := {| q67 := aso; q66 := existsb (Z.eqb 0x66) m1 || oso; qrep := rep_of m1; qseg := s |}.
Lemma prefixes_PF aso oso s pm b t : prefix_byte b = false -> (forall r, s = Some r -> 0 <= r < 6) ->
  prefixes no_pfx (PF aso oso (seg_list s) (mand1 pm) ++ b :: t) = (the_pfx aso oso s (mand1 pm), b :: t).
Proof.
  intros Hb Hs. rewrite <- (prefixes_stop (the_pfx aso oso s (mand1 pm)) b t Hb). generalize (b :: t). intros X.
  destruct s as [r|].
  - specialize (Hs r eq_refl). assert (R : r = 0 \/ r = 1 \/ r = 2 \/ r = 3 \/ r = 4 \/ r = 5) by lia. destruct R as [-> | [-> | [-> | [-> | [-> | ->]]]]]; destruct pm, aso, oso; reflexivity.
  - destruct pm, aso, oso; reflexivity.
Qed.

(** ** The opcode map *)
Lemma escape_app A mp op rest : escape A = (mp, [op]) -> escape (A ++ rest) = (mp, op :: rest).
Proof.
  destruct A as [|a t]; [discriminate|]. unfold escape. cbn [app]. destruct (a =? 0x0F).
  - destruct t as [|b u]; [discriminate|]. cbn [app]. destruct (b =? 0x38); [intros E; inversion E; reflexivity|]. destruct (b =? 0x3A); intros E; inversion E; reflexivity.
  - intros E. inversion E. reflexivity.
Qed.

(** ** Legacy instructions *)
Definition rexf (w r x b any : bool) : Z := if any then 64 + 8 * b2z w + 4 * b2z r + 2 * b2z x + b2z b else 0.
Definition pp_bits (p : pfx) : Z := if qrep p =? 0xF3 then 2 else if qrep p =? 0xF2 then 3 else if q66 p then 1 else 0.
Definition legh (mp pp : Z) (any w r x b : bool) : head :=
  {| h_kind := HLegacy; h_rex := any; h_w := w; h_r := r; h_x := x; h_b := b; h_r2 := false; h_v2 := false; h_vvvv := 0; h_ll := 0; h_pp := pp; h_map := mp; h_z := false; h_bc := false; h_aaa := 0 |}.
Lemma dec_head_legacy mode p w r x b any A mp op rest : (any = false -> w = false /\ r = false /\ x = false /\ b = false) -> (any = true -> mode = USE64) -> mode = USE32 \/ mode = USE64 ->
  opclass (nth 0 A 0) = true -> escape A = (mp, [op]) ->
  dec_head mode p ((if rexf w r x b any =? 0 then [] else [rexf w r x b any]) ++ A ++ rest) = Some (legh mp (pp_bits p) any w r x b, op :: rest).
Proof.
  intros Hn Ha Hm Ho He. pose proof (escape_app A mp op rest He) as Hr.
  assert (L : forall rex v, legacy_head rex v p (A ++ rest) = (legh mp (pp_bits p) rex (bt v 3) (bt v 2) (bt v 1) (bt v 0), op :: rest)).
  { intros rex v. unfold legacy_head. rewrite Hr. reflexivity. }
  destruct A as [|a t]; [discriminate|]. cbn [nth] in Ho. unfold opclass in Ho. repeat (apply andb_prop in Ho as [Ho ?]). repeat match goal with X : negb _ = true |- _ => apply negb_true_iff in X end.
  destruct any.
  - rewrite (Ha eq_refl). assert (R : exists v, rexf w r x b true = 64 + v /\ 0 <= v < 16 /\ bt v 3 = w /\ bt v 2 = r /\ bt v 1 = x /\ bt v 0 = b).
    { exists (8 * b2z w + 4 * b2z r + 2 * b2z x + b2z b). unfold rexf. split; [lia|]. destruct w, r, x, b; cbn; repeat split; lia. }
    destruct R as (v & -> & R & <- & <- & <- & <-). destruct (Z.eqb_spec (64 + v) 0); [lia|]. cbn [app]. unfold dec_head.
    destruct (Z.eqb_spec (64 + v) 0xC5); [lia|]. destruct (Z.eqb_spec (64 + v) 0xC4); [lia|]. destruct (Z.eqb_spec (64 + v) 0x62); [lia|]. cbn [andb].
    destruct (Z.leb_spec 0x40 (64 + v)); [|lia]. destruct (Z.leb_spec (64 + v) 0x4F); [|lia]. cbn [andb]. replace (64 + v - 64) with v by lia. change (a :: t ++ rest) with ((a :: t) ++ rest). rewrite L. reflexivity.
  - destruct (Hn eq_refl) as (-> & -> & -> & ->). unfold rexf. change (0 =? 0) with true. cbv iota. cbn [app]. unfold dec_head.
    match goal with X : (a =? 0xC5) = false |- _ => rewrite X end. match goal with X : (a =? 0xC4) = false |- _ => rewrite X end. match goal with X : (a =? 0x62) = false |- _ => rewrite X end. cbn [andb].
    change (a :: t ++ rest) with ((a :: t) ++ rest). rewrite L.
    destruct Hm as [-> | ->]; [reflexivity|]. match goal with X : (_ <=? a) && _ = false |- _ => rewrite X end. reflexivity.
Qed.
(** BuildREX *)
Definition REXb (rex : Z) (fR fB fX fRr fW fE dst a0 as_ pm : bool) : Z :=
  let rex := if fR then
               let rex := Z.lor rex 0x40 in
               let rex := if fB then Z.lor rex 1 else rex in
               let rex := if fX then Z.lor rex 2 else rex in
               let rex := if fRr then Z.lor rex 4 else rex in
               if fW then Z.lor rex 8 else rex
             else rex in
  let rex := if fE then
               if dst then let rex := if a0 then Z.lor rex 0x44 else rex in if as_ then Z.lor rex 0x41 else rex
               else let rex := if a0 then Z.lor rex 0x41 else rex in if as_ then Z.lor rex 0x44 else rex
             else rex in
  if pm then Z.lor rex 0x48 else rex.
Definition REXbits (fR fB fRr fW fE dst a0 as_ pm xB xX : bool) : Z :=
  rexf (fR && fW || pm) (fR && fRr || fE && (if dst then a0 else as_)) xX (fR && fB || fE && (if dst then as_ else a0) || xB) (fR || fE && (a0 || as_) || pm || xB || xX).
Lemma REXb_ok fR fB fRr fW fE dst a0 as_ pm (xB xX : bool) :
  let n := Z.lor (if xB then 0x41 else 0) (if xX then 0x42 else 0) in Z.lor n (REXb n fR fB false fRr fW fE dst a0 as_ pm) = REXbits fR fB fRr fW fE dst a0 as_ pm xB xX.
Proof.
  intros n. subst n. destruct fR, fB, fRr, fW, fE, dst, a0, as_, pm, xB, xX; reflexivity.
Qed.
Lemma BuildREX_eq rex d l : BuildREX rex d l =
  REXb rex (has REX (d_flags d)) (has REXB (d_flags d)) (has REXX (d_flags d)) (has REXR (d_flags d)) (has REXW (d_flags d)) (has EREX (d_flags d)) (match d_dir d with REG_DST => true | _ => false end)
    (above 7 (opn l 0)) (above 7 (opn l (d_src d))) (has REXP_MEM (d_flags d) && match opn l (memidx (d_mem d)) with OMem m => x_q m | _ => false end).
Proof. unfold BuildREX, REXb. destruct (d_dir d); reflexivity. Qed.

(** ** VEX *)
Definition vexh (v : vexf) : head :=
  {| h_kind := HVex; h_rex := false; h_w := v_w v; h_r := v_r v; h_x := v_x v; h_b := v_b v; h_r2 := false; h_v2 := false; h_vvvv := v_vvvv v; h_ll := v_l v; h_pp := v_pp v; h_map := v_map v;
     h_z := false; h_bc := false; h_aaa := 0 |}.
Lemma dec_head_vex mode p d v op rest : v_pp v = pp_of (d_vex d) -> v_map v = map_of (d_vex d) -> 1 <= map_of (d_vex d) -> 0 <= v_vvvv v < 16 -> 0 <= v_l v < 2 -> negb (has VEX_WIG (d_vex d) && v_w v) = true ->
  mode = USE32 \/ mode = USE64 -> (mode = USE32 -> v_r v = false /\ v_x v = false /\ v_vvvv v < 8) -> plain_pfx p = true ->
  dec_head mode p (pack_vex (vex_three d v) v ++ op :: rest) = Some (vexh v, op :: rest).
Proof.
  intros Hp Hm M1 V L W Mo U P.
  assert (Rp : 0 <= v_pp v < 4) by (rewrite Hp; unfold pp_of; repeat destruct (has _ _); lia).
  assert (Rm : 0 <= v_map v < 4) by (rewrite Hm; unfold map_of; repeat destruct (has _ _); lia).
  assert (T : vex_three d v = false -> v_x v = false /\ v_b v = false /\ v_w v = false /\ v_map v = 1).
  { unfold vex_three. rewrite Hm in *. unfold map_of in *. destruct (v_x v), (v_b v); cbn [orb]; try discriminate. destruct (v_w v), (has VEX_0F (d_vex d)), (has VEX_0F38 (d_vex d)), (has VEX_0F3A (d_vex d)), (has VEX_WIG (d_vex d)); cbn in *; try discriminate; intuition lia. }
  destruct v as [r x b w vvvv ll pp mp]. cbn [v_r v_x v_b v_w v_vvvv v_l v_pp v_map] in *. unfold vexh. cbn [v_r v_x v_b v_w v_vvvv v_l v_pp v_map].
  destruct (vex_three d _) eqn:E3.
  - destruct (vex3_bytes r x b w vvvv ll pp mp V L Rp Rm) as (y & z & -> & Y & H). cbn [app]. unfold dec_head. change (0xC4 =? 0xC5) with false. change (0xC4 =? 0xC4) with true. cbn [andb].
    assert (G : vexmark mode y = true).
    { unfold vexmark. destruct Mo as [-> | ->]; [|reflexivity]. destruct (U eq_refl) as (-> & -> & _). apply Z.leb_le. auto. }
    rewrite G, P, H. reflexivity.
  - destruct (T eq_refl) as (-> & -> & -> & ->). destruct (vex2_bytes r vvvv ll pp V L Rp) as (y & -> & Y & H). cbn [app]. unfold dec_head. change (0xC5 =? 0xC5) with true. cbn [andb].
    assert (G : vexmark mode y = true).
    { unfold vexmark. destruct Mo as [-> | ->]; [|reflexivity]. destruct (U eq_refl) as (-> & _ & V8). apply Z.leb_le. auto. }
    rewrite G, P, H. reflexivity.
Qed.

(** ** EVEX *)
Definition evexh (e : evexf) : head :=
  {| h_kind := HEvex; h_rex := false; h_w := e_w e; h_r := e_r e; h_x := e_x e; h_b := e_b e; h_r2 := e_r2 e; h_v2 := e_v2 e; h_vvvv := (e_vvvv e) mod 16; h_ll := e_ll e;
     h_pp := e_pp e; h_map := e_map e; h_z := e_z e; h_bc := e_bc e; h_aaa := e_aaa e |}.
Lemma dec_head_evex mode p e op rest : 0 <= e_vvvv e < 32 -> 0 <= e_ll e < 4 -> 0 <= e_pp e < 4 -> 0 <= e_map e < 4 -> 0 <= e_aaa e < 8 ->
  mode = USE32 \/ mode = USE64 -> (mode = USE32 -> e_r e = false /\ e_x e = false) -> plain_pfx p = true ->
  dec_head mode p (pack_evex e ++ op :: rest) = Some (evexh e, op :: rest).
Proof.
  intros V L Rp Rm A Mo U P. destruct (evex_bytes e V L Rp Rm A) as (x & y & z & -> & X & B3 & B2 & C2 & H). cbn [app]. unfold dec_head.
  change (0x62 =? 0xC5) with false. change (0x62 =? 0xC4) with false. change (0x62 =? 0x62) with true. cbn [andb].
  assert (G : vexmark mode x = true).
  { unfold vexmark. destruct Mo as [-> | ->]; [|reflexivity]. destruct (U eq_refl) as (Er & Ex). apply Z.leb_le. auto. }
  rewrite G, P, B3, B2, C2, H. reflexivity.
Qed.
