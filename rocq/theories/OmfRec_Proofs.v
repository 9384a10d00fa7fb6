From Verif Require Import Base OmfRec_Model OmfRec_Spec.

(** [appends out out' rd v]: out' is out plus an encoding of v that [rd] reads back *)
Definition appends {A} (out out' : outbuff) (rd : list Z -> option (A * list Z)) (v : A) : Prop :=
  ob_cmd out' = ob_cmd out /\
  exists e, ob_data out' = ob_data out ++ e /\ Forall is_byte e /\
            forall r, rd (e ++ r) = Some (v, r).

Lemma bindr_ok {A B} (r : res A) (f : A -> res B) b :
  bindr r f = Ok b -> exists a, r = Ok a /\ f a = Ok b.
Proof. destruct r; cbn; intros; try discriminate. eauto. Qed.

Lemma lor_0x80_hi i : 0 <= i < 2 ^ 15 -> Z.lor 0x80 (Z.shiftr i 8) = 128 + i / 256.
Proof.
  intros. rewrite Z.shiftr_div_pow2 by lia. change (2 ^ 8) with 256.
  assert (0 <= i / 256 < 128) by lia.
  assert (forallb (fun x => Z.lor 0x80 x =? 128 + x) (map Z.of_nat (seq 0 128)) = true) by (vm_compute; reflexivity).
  rewrite forallb_forall in H1. apply Z.eqb_eq, H1.
  apply in_map_iff. exists (Z.to_nat (i / 256)). rewrite in_seq. lia.
Qed.

Lemma land_ff v : Z.land v 0xff = v mod 256.
Proof. change 0xff with (Z.ones 8). rewrite Z.land_ones by lia. reflexivity. Qed.

Lemma PutByte_app out v out' : PutByte out v = Ok out' -> u8 v -> appends out out' rd_byte v.
Proof.
  unfold PutByte, u8, appends. intros. destruct (_ <? _); inversion H; subst; cbn.
  split; auto. exists [wrap 8 v]. rewrite wrap_small by auto. repeat split; auto.
Qed.

Lemma PutIndex_app out v out' : PutIndex out v = Ok out' -> idx15 v -> appends out out' rd_index v.
Proof.
  unfold PutIndex, idx15. intros H R. rewrite wrap_small in H by lia.
  destruct (v >? 0x7f) eqn:E.
  - apply bindr_ok in H as (o1 & H1 & H2).
    rewrite lor_0x80_hi in H1 by auto. rewrite land_ff in H2.
    unfold PutByte in H1, H2.
    destruct (zlen (ob_data out) <? _); inversion H1; subst; clear H1. cbn in H2.
    destruct (_ <? _); inversion H2; subst; clear H2.
    split; auto. cbn. exists [128 + v / 256; v mod 256].
    rewrite !wrap_small by lia. rewrite <- app_assoc. repeat split; auto.
    + repeat constructor; lia.
    + intros. cbn. destruct (_ <? _) eqn:F; [lia|]. f_equal. f_equal. lia.
  - rewrite land_ff in H. unfold PutByte in H. destruct (_ <? _); inversion H; subst; cbn.
    split; auto. exists [v]. rewrite wrap_small by lia. rewrite Z.mod_small by lia.
    repeat split; auto.
    + repeat constructor; lia.
    + intros. cbn. destruct (_ <? _) eqn:F; [|lia]. auto.
Qed.

Lemma PutWord_app out v out' : PutWord out v = Ok out' -> 0 <= v < 2 ^ 16 -> appends out out' rd_word v.
Proof.
  unfold PutWord. intros. destruct (_ <=? _); inversion H; subst; cbn.
  split; auto. exists (le_bytes 2 v). repeat split; auto using le_bytes_byte.
  intros; cbn. repeat f_equal; lia.
Qed.
Lemma PutWord_any out v out' : PutWord out v = Ok out' -> appends out out' rd_word (v mod 2 ^ 16).
Proof.
  unfold PutWord. intros. destruct (_ <=? _); inversion H; subst; cbn.
  split; auto. exists (le_bytes 2 v). repeat split; auto using le_bytes_byte.
  intros; cbn. f_equal. f_equal. change 65536 with (256 * 256). rewrite Z.rem_mul_r by lia. lia.
Qed.
Lemma PutDword_app out v out' : PutDword out v = Ok out' -> 0 <= v < 2 ^ 32 -> appends out out' rd_dword v.
Proof.
  unfold PutDword. intros. destruct (_ <=? _); inversion H; subst; cbn.
  split; auto. exists (le_bytes 4 v). repeat split; auto using le_bytes_byte.
  intros; cbn. repeat f_equal; lia.
Qed.

Lemma PutMem_app out d out' : PutMem out d = Ok out' ->
  ob_cmd out' = ob_cmd out /\ ob_data out' = ob_data out ++ d.
Proof. unfold PutMem. intros. destruct (_ <=? _); inversion H; subst; cbn; auto. Qed.

Lemma PutBase_app out b out' : PutBase out b = Ok out' -> base_ok b -> appends out out' rd_base b.
Proof.
  unfold PutBase, base_ok. intros H (G & S & F & D).
  apply bindr_ok in H as (o1 & H1 & H). apply bindr_ok in H as (o2 & H2 & H3).
  apply PutIndex_app in H1; auto. apply PutIndex_app in H2; auto.
  destruct H1 as (C1 & e1 & E1 & B1 & R1). destruct H2 as (C2 & e2 & E2 & B2 & R2).
  destruct (_ && _)%bool eqn:Z0.
  - apply PutWord_app in H3; auto. destruct H3 as (C3 & e3 & E3 & B3 & R3).
    split; [congruence|]. exists (e1 ++ e2 ++ e3). rewrite E3, E2, E1, <- !app_assoc.
    repeat split; auto. { rewrite !Forall_app; auto. }
    intros. rewrite <- !app_assoc. unfold rd_base. rewrite R1; cbn [bindo]. rewrite R2; cbn [bindo].
    rewrite Z0. rewrite R3; cbn [bindo]. destruct b; cbn. auto.
  - inversion H3; subst. split; [congruence|]. exists (e1 ++ e2). rewrite E2, E1, <- app_assoc.
    repeat split; auto. { rewrite !Forall_app; auto. }
    intros. rewrite <- !app_assoc. unfold rd_base. rewrite R1; cbn [bindo]. rewrite R2; cbn [bindo].
    rewrite Z0. destruct D as [[? ?]|?]. { lia. } destruct b; cbn in *. subst. auto.
Qed.

(** ** Framing *)
Lemma total_app a b : total (a ++ b) = total a + total b.
Proof. unfold total. induction a; cbn [app fold_right]; lia. Qed.

Lemma fold_sum l a : fold_left (fun a b => wrap 8 (a + b)) l a mod 256 = (a + total l) mod 256.
Proof.
  revert a; induction l; intros; cbn [fold_left total fold_right].
  - f_equal; lia.
  - rewrite IHl. unfold wrap. change (2 ^ 8) with 256.
    rewrite Zplus_mod_idemp_l. f_equal. unfold total. lia.
Qed.

Lemma WEndRec_frame out bytes :
  WEndRec out = Ok bytes -> 
  exists l0 l1 ck, bytes = ob_cmd out :: l0 :: l1 :: ob_data out ++ [ck] /\
    l0 + 256 * l1 = zlen (ob_data out) + 1 /\
    total bytes mod 256 = 0 /\ is_byte l0 /\ is_byte l1 /\ is_byte ck /\
    zlen (ob_data out) < OBJ_BUFFER_SIZE.
Proof.
  unfold WEndRec. intros. destruct (_ <? _) eqn:E; inversion H; subst; clear H.
  pose proof (zlen_nonneg (ob_data out)). unfold OBJ_BUFFER_SIZE in E.
  set (n := zlen (ob_data out)) in *.
  rewrite (wrap_small 16 (n + 1)) by lia.
  set (ck := wrap 8 (- _)).
  do 3 eexists. split; [reflexivity|].
  assert (is_byte ck) by (apply wrap_range; lia).
  repeat split; try (unfold is_byte in *; lia); unfold OBJ_BUFFER_SIZE; try lia.
  cbn [le_bytes app total fold_right]. change (fold_right Z.add 0) with total.
  rewrite total_app. cbn [total fold_right].
  unfold ck, wrap at 1. change (2 ^ 8) with 256.
  set (f := fold_left _ _ _).
  assert (F : f mod 256 = (ob_cmd out + (n + 1) mod 256 + (n + 1) / 256 mod 256 + total (ob_data out)) mod 256).
  { unfold f. rewrite fold_sum. unfold wrap. change (2 ^ 8) with 256. rewrite Zplus_mod_idemp_l.
    rewrite land_ff, Z.shiftr_div_pow2 by lia. f_equal. change (2 ^ 8) with 256. lia. }
  change (fold_right Z.add 0) with total in *.
  set (t := total _) in *. lia.
Qed.

Lemma removelast_app1 {A} (l : list A) x : removelast (l ++ [x]) = l.
Proof. apply removelast_last. Qed.

Lemma read_frames_cons k cmd l0 l1 d ck rest :
  l0 + 256 * l1 = zlen d + 1 ->
  total (cmd :: l0 :: l1 :: d ++ [ck]) mod 256 = 0 ->
  read_frames (S k) ((cmd :: l0 :: l1 :: d ++ [ck]) ++ rest) =
  match read_frames k rest with Some fs => Some ((cmd, d) :: fs) | None => None end.
Proof.
  intros L T. rewrite <- !app_comm_cons. cbn [read_frames].
  assert (N : Z.to_nat (l0 + 256 * l1) = length (d ++ [ck])).
  { rewrite app_length. cbn. unfold zlen in L. lia. }
  rewrite N.
  rewrite firstn_app, Nat.sub_diag, firstn_all, firstn_O, app_nil_r.
  rewrite skipn_app, Nat.sub_diag, skipn_all, skipn_O. cbn [app].
  rewrite Nat.eqb_refl, T. rewrite app_length; cbn [length].
  replace (Nat.ltb 0 (length d + 1)) with true by (symmetry; apply Nat.ltb_lt; lia).
  cbn [andb Z.eqb]. rewrite removelast_app1. reflexivity.
Qed.

Lemma read_frames_fuel l : forall k k' fs, read_frames k l = Some fs -> (k <= k')%nat -> read_frames k' l = Some fs.
Proof.
  intros k; revert l; induction k; intros; [discriminate|].
  destruct k'; [lia|]. cbn [read_frames] in *.
  destruct l as [|c [|l0 [|l1 rest]]]; auto.
  destruct (_ && _ && _)%bool; auto.
  destruct (read_frames k _) eqn:E; [|discriminate].
  erewrite IHk; eauto. lia.
Qed.

(** ** Each record *)
Definition rec_written (r : omf_rec) (bytes : list Z) : Prop :=
  exists out, WEndRec out = Ok bytes /\ Forall is_byte (ob_data out) /\ is_byte (ob_cmd out) /\
    rd_contents (ob_cmd out, ob_data out) = Some (meaning r).

Lemma acbp_decode c u a b :
  0 <= c < 8 -> bit u -> 0 <= a < 8 -> bit b ->
  let x := wrap 8 (Z.lor (wrap 8 (Z.lor (Z.shiftl c 2) u)) (Z.shiftl a 5)) in
  let y := if b =? 1 then Z.lor x 2 else x in
  u8 y /\ y / 32 = a /\ y / 4 mod 8 = c /\ y / 2 mod 2 = b /\ y mod 2 = u.
Proof.
  intros.
  assert (Hc : In c (map Z.of_nat (seq 0 8))) by (apply in_map_iff; exists (Z.to_nat c); rewrite in_seq; lia).
  assert (Ha : In a (map Z.of_nat (seq 0 8))) by (apply in_map_iff; exists (Z.to_nat a); rewrite in_seq; lia).
  cbn in Hc, Ha. unfold bit in *.
  repeat match goal with H : _ \/ _ |- _ => destruct H; subst end; try contradiction;
    vm_compute; repeat split; congruence.
Qed.

Ltac inv_bind H :=
  match type of H with
  | bindr _ _ = Ok _ =>
      let o := fresh "o" in let H1 := fresh "W" in
      apply bindr_ok in H as (o & H1 & H); inv_bind H
  | _ => idtac
  end.

Lemma ofs_app is32 out v out' : bit is32 -> ofs_ok is32 v ->
  (if negb (is32 =? 0) then PutDword out v else PutWord out v) = Ok out' ->
  appends out out' (rd_ofs (is32 =? 1)) v.
Proof.
  unfold ofs_ok. intros [->| ->] R H; cbn in *.
  - apply PutWord_app; auto.
  - apply PutDword_app; auto.
Qed.

Ltac appsto :=
  repeat match goal with
  | H : PutByte _ _ = Ok _ |- _ => apply PutByte_app in H; [|assumption]; destruct H as (? & ? & ? & ? & ?)
  | H : PutIndex _ _ = Ok _ |- _ => apply PutIndex_app in H; [|assumption]; destruct H as (? & ? & ? & ? & ?)
  | H : PutBase _ _ = Ok _ |- _ => apply PutBase_app in H; [|assumption]; destruct H as (? & ? & ? & ? & ?)
  | H : PutMem _ _ = Ok _ |- _ => apply PutMem_app in H; destruct H as (? & ?)
  end.

Ltac collect D :=
  repeat match goal with
  | H : ob_data _ = _ ++ _ |- _ => rewrite H in D; clear H
  end.

Lemma lor_bit c : In c [0x9c; 0xb2; 0xc8] -> Z.lor c 1 = c + 1.
Proof. cbn. intros; repeat match goal with H : _ \/ _ |- _ => destruct H; subst end; try contradiction; reflexivity. Qed.

Ltac name_data D HD :=
  match goal with |- context [ob_data ?o] =>
    let H := fresh in
    assert (H : exists D, ob_data o = D /\ D = ob_data o) by eauto;
    destruct H as (D & H & HD); rewrite H; clear H end.
Ltac rdstep := repeat (match goal with
     | H : forall r, rd_byte (?e ++ r) = _ |- context [rd_byte (?e ++ ?t)] => rewrite (H t)
     | H : forall r, rd_index (?e ++ r) = _ |- context [rd_index (?e ++ ?t)] => rewrite (H t)
     | H : forall r, rd_byte (?e ++ r) = _ |- context [rd_byte ?e] => specialize (H []); rewrite app_nil_r in H; rewrite H
     | H : forall r, rd_index (?e ++ r) = _ |- context [rd_index ?e] => specialize (H []); rewrite app_nil_r in H; rewrite H
     end; cbn [bindo]).
Ltac red_idx W :=
  match type of W with
  | context [nth_error func_index ?n] =>
      let x := eval vm_compute in (nth_error func_index n) in
      change (nth_error func_index n) with x in W; cbv iota beta in W
  end.

Lemma write_record_ok r bytes :
  rec_ok r -> omf_write_record r = Ok bytes -> rec_written r bytes.
Proof.
  intros (B32 & BD & K) W. destruct r as [cmd is32 data d]. cbn [r_cmd r_is32 r_data r_d] in *.
  unfold omf_write_record in W. cbn [r_cmd] in W.
  destruct d; cbn [r_d] in K.
  - (* plain *)
    destruct K as [(K & Z32)|K]; cbn [In] in K.
    + subst is32.
      repeat (destruct K as [<-|K]; [red_idx W; unfold writeTheadr, writeMisc, writeMisc32 in W; cbn [r_cmd r_is32 r_data] in W; inv_bind W; appsto;
        eexists; split; [exact W|]; match goal with H : ob_data _ = _, H' : ob_cmd _ = _ |- _ => rewrite H, H' end;
        cbn; repeat split; auto; lia|]). contradiction.
    + repeat (destruct K as [<-|K]; [red_idx W; unfold writeTheadr, writeMisc, writeMisc32 in W; cbn [r_cmd r_is32 r_data] in W; inv_bind W; appsto;
        eexists; split; [exact W|]; match goal with H : ob_data _ = _, H' : ob_cmd _ = _ |- _ => rewrite H, H' end;
        destruct B32 as [->| ->]; cbn; repeat split; auto; lia|]). contradiction.
  - (* coment *)
    destruct K as (-> & U1 & U2). red_idx W. unfold writeComent in W; cbn [r_d r_data] in W.
    inv_bind W; appsto. eexists; split; [exact W|].
    name_data D HD. collect HD. cbn [WBegRec ob_data app] in HD.
    match goal with |- context [ob_cmd ?o] => assert (C : ob_cmd o = 0x88) by (repeat match goal with H : ob_cmd _ = _ |- _ => rewrite H; clear H end; reflexivity) end.
    rewrite C, HD. split; [|split; [unfold is_byte; lia|]].
    { rewrite !Forall_app; auto. }
    rewrite <- !app_assoc. cbn. rdstep. reflexivity.
  - (* modend *)
    subst. red_idx W. unfold writeModend in W; cbn [r_d r_data r_is32] in W.
    destruct start_addrs.
    + inv_bind W.
      assert (U : u8 (Z.lor (if main_module then 128 else 0) 65)) by (destruct main_module; vm_compute; split; congruence).
      appsto. eexists; split; [exact W|].
      name_data D HD. collect HD. cbn [WBegRec ob_data app] in HD.
      match goal with |- context [ob_cmd ?o] => assert (C : ob_cmd o = 0x8a + is32) by (repeat match goal with H : ob_cmd _ = _ |- _ => rewrite H; clear H end; destruct B32 as [->| ->]; reflexivity) end.
      rewrite C, HD. split; [|split; [destruct B32; unfold is_byte; lia|]].
      { rewrite !Forall_app; auto. }
      rewrite <- ?app_assoc. destruct B32 as [->| ->]; cbn -[Z.lor]; rdstep; cbn; destruct main_module; reflexivity.
    + inv_bind W.
      assert (U : u8 (if main_module then 128 else 0)) by (destruct main_module; vm_compute; split; congruence).
      appsto. eexists; split; [exact W|].
      name_data D HD. collect HD. cbn [WBegRec ob_data app] in HD.
      match goal with |- context [ob_cmd ?o] => assert (C : ob_cmd o = 0x8a) by (repeat match goal with H : ob_cmd _ = _ |- _ => rewrite H; clear H end; rewrite andb_false_r; reflexivity) end.
      rewrite C, HD.
      split; [auto|split; [vm_compute; split; congruence|]].
      cbn. rdstep. destruct main_module; reflexivity.
  - (* segdef *)
    destruct K as (-> & U32 & UA & UC & UF & UO & UABS & UL & I1 & I2 & I3 & ->).
    red_idx W. unfold writeSegdef in W; cbn [r_d r_data r_is32] in W.
    destruct i as [use32 align combine absf abso len n1 n2 n3].
    cbn [sd_use32 sd_align sd_combine sd_abs_frame sd_abs_offset sd_length sd_seg_lname sd_class_lname sd_ovl_lname] in *.
    set (b := if (is32 =? 0) && (len =? 65536) then 1 else 0).
    assert (BB : bit b) by (unfold b, bit; destruct (_ && _)%bool; auto).
    pose proof (acbp_decode combine use32 align b UC U32 UA BB) as AD.
    assert (EQ : (if (is32 =? 0) && (len =? 65536)
       then Z.lor (wrap 8 (Z.lor (wrap 8 (Z.lor (Z.shiftl combine 2) use32)) (Z.shiftl align 5))) 2
       else wrap 8 (Z.lor (wrap 8 (Z.lor (Z.shiftl combine 2) use32)) (Z.shiftl align 5))) =
       (if b =? 1 then Z.lor (wrap 8 (Z.lor (wrap 8 (Z.lor (Z.shiftl combine 2) use32)) (Z.shiftl align 5))) 2
       else wrap 8 (Z.lor (wrap 8 (Z.lor (Z.shiftl combine 2) use32)) (Z.shiftl align 5)))).
    { unfold b. destruct (_ && _)%bool; reflexivity. }
    cbv zeta in AD. rewrite <- EQ in AD. clear EQ.
    set (acbp := if (is32 =? 0) && (len =? 65536) then _ else _) in *.
    destruct AD as (A0 & A1 & A2 & A3 & A4). clearbody acbp.
    inv_bind W.
    (* absolute part *)
    assert (AB : appends o o0 (fun l => bindo (if align =? 0 then rd_word l else Some (0, l)) (fun x => let (fr, l) := x in
               bindo (if align =? 0 then rd_byte l else Some (0, l)) (fun y => let (fo, l) := y in Some ((fr, fo), l)))) (absf, abso)).
    { destruct (align =? 0) eqn:EA.
      - apply bindr_ok in W1 as (ow & WW & W1). apply PutByte_app in W1; auto. apply PutWord_app in WW; auto.
        destruct WW as (C5 & e5 & D5 & F5 & R5), W1 as (C1 & e1 & D1 & F1 & R1).
        split; [congruence|]. exists (e5 ++ e1). rewrite D1, D5, <- app_assoc. repeat split; auto.
        { rewrite Forall_app; auto. }
        intros. rewrite <- app_assoc, R5; cbn. rewrite R1; cbn. reflexivity.
      - inversion W1; subst. split; auto. exists []. rewrite app_nil_r. repeat split; auto.
        intros; cbn. destruct UABS as [|[-> ->]]; [lia|]. reflexivity. }
    clear W1. destruct AB as (CA & eA & DA & FA & RA).
    assert (LL : appends o0 o1 (fun l => bindo (rd_ofs (is32 =? 1) l) (fun x => let (v, l) := x in Some ((if b =? 1 then 65536 else v), l))) len).
    { unfold b. destruct B32 as [->| ->]; cbn [Z.eqb negb andb] in *.
      - cbn in W2. apply PutWord_any in W2. destruct W2 as (CW & eW & DW & FW & RW).
        split; auto. exists eW. repeat split; auto. intros. cbn [rd_ofs]. change (0 =? 1) with false. cbn [rd_ofs].
        rewrite RW; cbn. destruct (len =? 65536) eqn:E; cbn; repeat f_equal; try lia.
      - cbn in W2. apply PutDword_app in W2; [|lia]. destruct W2 as (CW & eW & DW & FW & RW).
        split; auto. exists eW. repeat split; auto. intros. cbn. rewrite RW; cbn. reflexivity. }
    clear W2. destruct LL as (CL & eL & DL & FL & RL).
    appsto. eexists; split; [exact W|].
    name_data D HD. collect HD. cbn [WBegRec ob_data app] in HD.
    match goal with |- context [ob_cmd ?o] => assert (C : ob_cmd o = 0x98 + is32) by (repeat match goal with H : ob_cmd _ = _ |- _ => rewrite H; clear H end; destruct B32 as [->| ->]; reflexivity) end.
    rewrite C, HD. split; [|split; [destruct B32; unfold is_byte; lia|]].
    { rewrite !Forall_app; tauto. }
    assert (R0 : rd_contents (152 + is32, D) = rd_segdef (is32 =? 1) D) by (destruct B32 as [->| ->]; reflexivity).
    rewrite <- HD, R0, HD. rewrite <- !app_assoc. unfold rd_segdef.
    match goal with H : forall r, rd_byte _ = _ |- _ => rewrite H end. cbn [bindo].
    rewrite A1, A2, A3, A4.
    match goal with |- context [eA ++ ?t] => specialize (RA t) end.
    destruct (if align =? 0 then rd_word _ else _) as [[fr l1]|] eqn:X1; [|discriminate]. cbn [bindo] in RA |- *.
    destruct (if align =? 0 then rd_byte _ else _) as [[fo l2]|] eqn:X2; [|discriminate]. cbn [bindo] in RA |- *.
    inversion RA; subst fr fo l2. clear RA.
    match goal with |- context [eL ++ ?t] => specialize (RL t) end.
    destruct (rd_ofs _ _) as [[v l3]|] eqn:X3; [|discriminate]. cbn [bindo] in RL |- *.
    inversion RL. subst l3. clear RL.
    repeat match goal with H : forall r, rd_index (_ ++ r) = _ |- _ => first [rewrite H; cbn [bindo] | specialize (H []); rewrite app_nil_r in H; rewrite H; cbn [bindo]] end.
    cbn [meaning r_d r_is32]. do 3 f_equal.
    destruct B32 as [->| ->]; cbn; [|unfold b in *; cbn in *]; destruct (b =? 1); auto; lia.
  - (* ledata *)
    destruct K as (KC & U1 & U2).
    assert (W' : writeLedata {| r_cmd := cmd; r_is32 := is32; r_data := data; r_d := D_ledata idx offset |} = Ok bytes)
      by (destruct KC as [-> | ->]; exact W). clear W. rename W' into W.
    unfold writeLedata in W; cbn [r_d r_data r_is32 r_cmd] in W. inv_bind W.
    apply ofs_app in W1; auto. destruct W1 as (? & ? & ? & ? & ?).
    appsto. eexists; split; [exact W|].
    name_data D HD. collect HD. cbn [WBegRec ob_data app] in HD.
    match goal with |- context [ob_cmd ?o] => assert (C : ob_cmd o = cmd + is32) by (repeat match goal with H : ob_cmd _ = _ |- _ => rewrite H; clear H end; destruct B32 as [->| ->], KC as [-> | ->]; reflexivity) end.
    rewrite C, HD. split; [|split; [destruct B32, KC; unfold is_byte; lia|]].
    { rewrite !Forall_app; tauto. }
    rewrite <- !app_assoc.
    assert (R0 : forall l, rd_contents (cmd + is32, l) = bindo (rd_index l) (fun x => let (i, l0) := x in
        bindo (rd_ofs (is32 =? 1) l0) (fun y => let (o, l1) := y in Some (V_ledata cmd (is32 =? 1) i o l1))))
      by (destruct B32 as [->| ->], KC as [-> | ->]; reflexivity).
    rewrite R0.
    match goal with H : forall r, rd_index _ = _ |- _ => rewrite H end. cbn [bindo].
    match goal with H : forall r, rd_ofs _ _ = _ |- _ => rewrite H end. reflexivity.
  - (* base *)
    destruct K as (KC & BO).
    assert (R0 : forall l, rd_contents (cmd + is32, l) = bindo (rd_base l) (fun x => let (b, l0) := x in
        Some (V_base cmd (is32 =? 1) b l0)))
      by (cbn in KC; repeat (destruct KC as [<-|KC]; [destruct B32 as [->| ->]; reflexivity|]); contradiction).
    assert (W' : writePubdef {| r_cmd := cmd; r_is32 := is32; r_data := data; r_d := D_base b |} = Ok bytes)
      by (cbn in KC; repeat (destruct KC as [<-|KC]; [exact W|]); contradiction).
    unfold writePubdef in W'; cbn [r_d r_data r_is32 r_cmd] in W'. inv_bind W'. appsto.
    eexists; split; [exact W'|].
    name_data D HD. collect HD. cbn [WBegRec ob_data app] in HD.
    match goal with |- context [ob_cmd ?o] => assert (C : ob_cmd o = cmd + is32) by
      (repeat match goal with H : ob_cmd _ = _ |- _ => rewrite H; clear H end; cbn in KC; repeat (destruct KC as [<-|KC]; [destruct B32 as [->| ->]; reflexivity|]); contradiction) end.
    rewrite C, HD. split; [|split].
    { rewrite !Forall_app; tauto. }
    { cbn in KC; destruct B32; unfold is_byte; lia. }
    rewrite R0. match goal with H : forall r, rd_base _ = _ |- _ => rewrite H end. reflexivity.
  - (* comdat *)
    destruct K as (-> & U1 & U2 & U3 & UO & I1 & BO & BZ & I2).
    red_idx W. unfold writeComdat in W; cbn [r_d r_data r_is32 r_cmd] in W.
    destruct i as [fl at_ al ofs ti b pl].
    cbn [cd_flags cd_attributes cd_align cd_offset cd_type_idx cd_base cd_public_lname] in *.
    inv_bind W. apply ofs_app in W3; auto. destruct W3 as (? & ? & ? & ? & RO).
    assert (AM : Z.land at_ COMDAT_ALLOC_MASK = at_ mod 16).
    { unfold COMDAT_ALLOC_MASK. change 15 with (Z.ones 4). rewrite Z.land_ones by lia. reflexivity. }
    rewrite AM in W5. unfold COMDAT_EXPLICIT in W5.
    assert (AB : appends o3 o4 (fun l => if at_ mod 16 =? 0 then rd_base l else Some ({| grp_idx := 0; seg_idx := 0; frame := 0 |}, l)) b).
    { destruct (at_ mod 16 =? 0) eqn:E. { apply PutBase_app; auto. }
      inversion W5; subst. split; auto. exists []. rewrite app_nil_r. repeat split; auto.
      intros. destruct BZ as [|(B1 & B2 & B3)]; [lia|]. destruct b; cbn in *; subst. reflexivity. }
    clear W5. destruct AB as (CB & eB & DB & FB & RB).
    appsto. eexists; split; [exact W|].
    name_data D HD. collect HD. cbn [WBegRec ob_data app] in HD.
    match goal with |- context [ob_cmd ?o] => assert (C : ob_cmd o = 0xc2 + is32) by (repeat match goal with H : ob_cmd _ = _ |- _ => rewrite H; clear H end; destruct B32 as [->| ->]; reflexivity) end.
    rewrite C, HD. split; [|split; [destruct B32; unfold is_byte; lia|]].
    { rewrite !Forall_app; tauto. }
    rewrite <- !app_assoc. rewrite C in *. clear HD C.
    destruct B32 as [->| ->]; cbn [rd_contents]; cbn -[rd_byte rd_index rd_base rd_word rd_dword Z.eqb Z.modulo];
    change ((194 + 0) mod 2 =? 1) with false; change ((194 + 1) mod 2 =? 1) with true;
    cbn -[rd_byte rd_index rd_base rd_word rd_dword];
    repeat (match goal with
     | H : forall r, rd_byte (?e ++ r) = _ |- context [rd_byte (?e ++ ?t)] => rewrite (H t)
     | H : forall r, rd_index (?e ++ r) = _ |- context [rd_index (?e ++ ?t)] => rewrite (H t)
     | H : forall r, rd_ofs _ (?e ++ r) = _ |- context [rd_word (?e ++ ?t)] => specialize (H t); cbn [rd_ofs] in H; change (0 =? 1) with false in H; cbn [rd_ofs] in H; rewrite H
     | H : forall r, rd_ofs _ (?e ++ r) = _ |- context [rd_dword (?e ++ ?t)] => specialize (H t); cbn [rd_ofs] in H; change (1 =? 1) with true in H; cbn [rd_ofs] in H; rewrite H
     | |- context [eB ++ ?t] => rewrite (RB t)
     end; cbn -[rd_byte rd_index rd_base rd_word rd_dword]); reflexivity.
  - (* linsym *)
    destruct K as (-> & U1 & U2). red_idx W. unfold writeLinsym in W; cbn [r_d r_data r_is32] in W.
    inv_bind W; appsto. eexists; split; [exact W|].
    name_data D HD. collect HD. cbn [WBegRec ob_data app] in HD.
    match goal with |- context [ob_cmd ?o] => assert (C : ob_cmd o = 0xc4 + is32) by (repeat match goal with H : ob_cmd _ = _ |- _ => rewrite H; clear H end; destruct B32 as [->| ->]; reflexivity) end.
    rewrite C, HD. split; [|split; [destruct B32; unfold is_byte; lia|]].
    { rewrite !Forall_app; tauto. }
    rewrite <- !app_assoc. rewrite C in *. clear HD C.
    destruct B32 as [->| ->]; cbn [rd_contents]; cbn -[rd_byte rd_index];
    repeat (match goal with
     | H : forall r, rd_byte (?e ++ r) = _ |- context [rd_byte (?e ++ ?t)] => rewrite (H t)
     | H : forall r, rd_index (?e ++ r) = _ |- context [rd_index (?e ++ ?t)] => rewrite (H t)
     end; cbn -[rd_byte rd_index]); reflexivity.
Qed.

Lemma read_frames_records rs : forall bytes,
  Forall rec_ok rs -> omf_write_records rs = Ok bytes ->
  Forall is_byte bytes /\
  exists fs, map_opt rd_contents fs = Some (map meaning rs) /\
  forall k, (length bytes < k)%nat -> read_frames k bytes = Some fs.
Proof.
  induction rs; intros bytes F W; cbn [omf_write_records] in W.
  - inversion W; subst. split; auto. exists []. split; auto. intros. destruct k; [lia|]. reflexivity.
  - inversion F; subst. inv_bind W. inversion W; subst.
    apply write_record_ok in W0; auto. destruct W0 as (out & WE & FB & CB & RC).
    apply WEndRec_frame in WE as (l0 & l1 & ck & -> & L & T & B0 & B1 & B2 & SZ).
    destruct (IHrs o0 H2 W1) as (FB' & fs & MF & RF).
    split. { apply Forall_app; split; auto. repeat constructor; try apply CB; try apply B0; try apply B1.
             apply Forall_app; split; auto. }
    exists ((ob_cmd out, ob_data out) :: fs). split.
    { cbn [map_opt map]. rewrite RC, MF. reflexivity. }
    intros. destruct k; [lia|].
    rewrite read_frames_cons by auto. rewrite RF; auto.
    rewrite app_length in H. cbn [length] in H. lia.
Qed.

Lemma omf_records_roundtrip rs bytes :
  Forall rec_ok rs -> omf_write_records rs = Ok bytes ->
  Forall is_byte bytes /\ read_views bytes = Some (map meaning rs).
Proof.
  intros F W. destruct (read_frames_records rs bytes F W) as (B & fs & M & R).
  split; auto. unfold read_views, read_module. rewrite R by lia. cbn. exact M.
Qed.

(** ** Writing succeeds whenever the data fits. *)
Lemma PutByte_total out v : zlen (ob_data out) < OBJ_BUFFER_SIZE -> 
  exists o, PutByte out v = Ok o /\ zlen (ob_data o) = zlen (ob_data out) + 1.
Proof.
  intros. unfold PutByte. destruct (_ <? _) eqn:E; [|lia]. eexists; split; eauto.
  cbn. rewrite zlen_app. reflexivity.
Qed.
Lemma PutIndex_total out v : zlen (ob_data out) + 2 <= OBJ_BUFFER_SIZE ->
  exists o, PutIndex out v = Ok o /\ zlen (ob_data o) <= zlen (ob_data out) + 2.
Proof.
  intros. unfold PutIndex. destruct (_ >? _).
  - destruct (PutByte_total out (Z.lor 128 (Z.shiftr (wrap 16 v) 8)) ltac:(lia)) as (o & -> & L). cbn [bindr].
    destruct (PutByte_total o (Z.land (wrap 16 v) 255) ltac:(lia)) as (o' & -> & L'). eexists; split; eauto. lia.
  - destruct (PutByte_total out (Z.land (wrap 16 v) 255) ltac:(lia)) as (o & -> & L). eexists; split; eauto. lia.
Qed.
Lemma PutWord_total out v : zlen (ob_data out) + 2 <= OBJ_BUFFER_SIZE ->
  exists o, PutWord out v = Ok o /\ zlen (ob_data o) = zlen (ob_data out) + 2.
Proof.
  intros. unfold PutWord. destruct (_ <=? _) eqn:E; [|lia]. eexists; split; eauto.
  cbn. rewrite zlen_app. reflexivity.
Qed.
Lemma PutDword_total out v : zlen (ob_data out) + 4 <= OBJ_BUFFER_SIZE ->
  exists o, PutDword out v = Ok o /\ zlen (ob_data o) = zlen (ob_data out) + 4.
Proof.
  intros. unfold PutDword. destruct (_ <=? _) eqn:E; [|lia]. eexists; split; eauto.
  cbn. rewrite zlen_app. reflexivity.
Qed.
Lemma PutMem_total out d : zlen (ob_data out) + zlen d < OBJ_BUFFER_SIZE ->
  exists o, PutMem out d = Ok o /\ zlen (ob_data o) = zlen (ob_data out) + zlen d.
Proof.
  intros. unfold PutMem. pose proof (zlen_nonneg d). pose proof (zlen_nonneg (ob_data out)). unfold OBJ_BUFFER_SIZE in *.
  rewrite wrap_small by lia.
  destruct (_ <=? _) eqn:E; [|lia]. eexists; split; eauto. cbn. rewrite zlen_app. reflexivity.
Qed.
Lemma WEndRec_total out : zlen (ob_data out) < OBJ_BUFFER_SIZE -> exists b, WEndRec out = Ok b.
Proof. intros. unfold WEndRec. destruct (_ <? _) eqn:E; [|lia]. eauto. Qed.
Lemma PutBase_total out b : zlen (ob_data out) + 6 <= OBJ_BUFFER_SIZE ->
  exists o, PutBase out b = Ok o /\ zlen (ob_data o) <= zlen (ob_data out) + 6.
Proof.
  intros. unfold PutBase.
  destruct (PutIndex_total out (grp_idx b) ltac:(lia)) as (o & -> & L). cbn [bindr].
  destruct (PutIndex_total o (seg_idx b) ltac:(lia)) as (o' & -> & L'). cbn [bindr].
  destruct (_ && _)%bool.
  - destruct (PutWord_total o' (frame b) ltac:(lia)) as (o2 & -> & L2). eexists; split; eauto. lia.
  - eexists; split; eauto. lia.
Qed.

Lemma bindr_assoc {A B C} (r : res A) (f : A -> res B) (g : B -> res C) :
  bindr (bindr r f) g = bindr r (fun a => bindr (f a) g).
Proof. destruct r; reflexivity. Qed.

Ltac steptot :=
  match goal with
  | |- context [WBegRec ?c] => let H := fresh in assert (H : zlen (ob_data (WBegRec c)) = 0) by reflexivity; set (WBegRec c) in *
  | |- exists b, bindr (PutByte ?o ?v) _ = Ok b => let H := fresh in destruct (PutByte_total o v ltac:(unfold OBJ_BUFFER_SIZE in *; lia)) as (? & H & ?); rewrite H; clear H; cbn [bindr]
  | |- exists b, bindr (PutIndex ?o ?v) _ = Ok b => let H := fresh in destruct (PutIndex_total o v ltac:(unfold OBJ_BUFFER_SIZE in *; lia)) as (? & H & ?); rewrite H; clear H; cbn [bindr]
  | |- exists b, bindr (PutWord ?o ?v) _ = Ok b => let H := fresh in destruct (PutWord_total o v ltac:(unfold OBJ_BUFFER_SIZE in *; lia)) as (? & H & ?); rewrite H; clear H; cbn [bindr]
  | |- exists b, bindr (PutDword ?o ?v) _ = Ok b => let H := fresh in destruct (PutDword_total o v ltac:(unfold OBJ_BUFFER_SIZE in *; lia)) as (? & H & ?); rewrite H; clear H; cbn [bindr]
  | |- exists b, bindr (PutMem ?o ?v) _ = Ok b => let H := fresh in destruct (PutMem_total o v ltac:(unfold OBJ_BUFFER_SIZE in *; lia)) as (? & H & ?); rewrite H; clear H; cbn [bindr]
  | |- exists b, bindr (PutBase ?o ?v) _ = Ok b => let H := fresh in destruct (PutBase_total o v ltac:(unfold OBJ_BUFFER_SIZE in *; lia)) as (? & H & ?); rewrite H; clear H; cbn [bindr]
  | |- exists b, bindr (if ?c then _ else _) _ = Ok b => destruct c
  | |- exists b, bindr (bindr _ _) _ = Ok b => rewrite bindr_assoc
  | |- exists b, bindr (Ok _) _ = Ok b => cbn [bindr]
  | |- exists b, (if ?c then _ else _) = Ok b => destruct c
  | |- exists b, WEndRec _ = Ok b => apply WEndRec_total; unfold OBJ_BUFFER_SIZE in *; lia
  end.

Lemma write_record_total r : rec_ok r -> zlen (r_data r) <= 4050 -> exists b, omf_write_record r = Ok b.
Proof.
  intros (B32 & BD & K) L. destruct r as [cmd is32 data d]. cbn [r_cmd r_is32 r_data r_d] in *.
  pose proof (zlen_nonneg data).
  unfold omf_write_record; cbn [r_cmd].
  destruct d; cbn [r_d In] in K;
  repeat match goal with H : _ \/ _ |- _ => destruct H; subst | H : _ /\ _ |- _ => destruct H; subst end; try contradiction; try discriminate; try subst cmd;
  match goal with |- context [nth_error func_index ?n] => let x := eval vm_compute in (nth_error func_index n) in change (nth_error func_index n) with x; cbv iota beta end;
  unfold writeTheadr, writeMisc, writeMisc32, writeSegdef, writeLedata, writeComent, writeModend, writePubdef, writeLinnum, writeComdat, writeLinsym;
  cbn [r_d r_data r_is32 r_cmd]; cbv zeta;
  repeat steptot.
Qed.

(** ** No request overruns the buffer *)
Lemma PutMem_cases out d : zlen (ob_data out) < OBJ_BUFFER_SIZE ->
  (exists o, PutMem out d = Ok o /\ zlen (ob_data o) < OBJ_BUFFER_SIZE) \/ PutMem out d = Err.
Proof.
  intros H. unfold PutMem. pose proof (zlen_nonneg d). pose proof (zlen_nonneg (ob_data out)).
  unfold OBJ_BUFFER_SIZE in *. rewrite wrap_small by (change (2 ^ 32) with 4294967296; lia).
  destruct (_ <=? _) eqn:E; [left|right; reflexivity]. eexists; split; [reflexivity|]. cbn [ob_data]. rewrite zlen_app. lia.
Qed.
Lemma WEndRec_noub out : zlen (ob_data out) < OBJ_BUFFER_SIZE -> WEndRec out <> UB.
Proof. intros H. destruct (WEndRec_total out H) as [b ->]. discriminate. Qed.

Ltac stepnoub :=
  match goal with
  | |- context [WBegRec ?c] => let H := fresh in assert (H : zlen (ob_data (WBegRec c)) = 0) by reflexivity; set (WBegRec c) in *
  | |- bindr (PutByte ?o ?v) _ <> UB => let H := fresh in destruct (PutByte_total o v ltac:(unfold OBJ_BUFFER_SIZE in *; lia)) as (? & H & ?); rewrite H; clear H; cbn [bindr]
  | |- bindr (PutIndex ?o ?v) _ <> UB => let H := fresh in destruct (PutIndex_total o v ltac:(unfold OBJ_BUFFER_SIZE in *; lia)) as (? & H & ?); rewrite H; clear H; cbn [bindr]
  | |- bindr (PutWord ?o ?v) _ <> UB => let H := fresh in destruct (PutWord_total o v ltac:(unfold OBJ_BUFFER_SIZE in *; lia)) as (? & H & ?); rewrite H; clear H; cbn [bindr]
  | |- bindr (PutDword ?o ?v) _ <> UB => let H := fresh in destruct (PutDword_total o v ltac:(unfold OBJ_BUFFER_SIZE in *; lia)) as (? & H & ?); rewrite H; clear H; cbn [bindr]
  | |- bindr (PutMem ?o ?v) _ <> UB => let H := fresh in destruct (PutMem_cases o v ltac:(unfold OBJ_BUFFER_SIZE in *; lia)) as [(? & H & ?)|H]; rewrite H; clear H; cbn [bindr]
  | |- bindr (PutBase ?o ?v) _ <> UB => let H := fresh in destruct (PutBase_total o v ltac:(unfold OBJ_BUFFER_SIZE in *; lia)) as (? & H & ?); rewrite H; clear H; cbn [bindr]
  | |- bindr (if ?c then _ else _) _ <> UB => destruct c
  | |- bindr (bindr _ _) _ <> UB => rewrite bindr_assoc
  | |- bindr (Ok _) _ <> UB => cbn [bindr]
  | |- (if ?c then _ else _) <> UB => destruct c
  | |- WEndRec _ <> UB => apply WEndRec_noub; unfold OBJ_BUFFER_SIZE in *; lia
  | |- Err <> UB => discriminate
  end.

Lemma write_record_noub r : rec_ok r -> omf_write_record r <> UB.
Proof.
  intros (B32 & BD & K). destruct r as [cmd is32 data d]. cbn [r_cmd r_is32 r_data r_d] in *.
  pose proof (zlen_nonneg data).
  unfold omf_write_record; cbn [r_cmd].
  destruct d; cbn [r_d In] in K;
  repeat match goal with H : _ \/ _ |- _ => destruct H; subst | H : _ /\ _ |- _ => destruct H; subst end; try contradiction; try discriminate; try subst cmd;
  match goal with |- context [nth_error func_index ?n] => let x := eval vm_compute in (nth_error func_index n) in change (nth_error func_index n) with x; cbv iota beta end;
  unfold writeTheadr, writeMisc, writeMisc32, writeSegdef, writeLedata, writeComent, writeModend, writePubdef, writeLinnum, writeComdat, writeLinsym;
  cbn [r_d r_data r_is32 r_cmd]; cbv zeta;
  repeat stepnoub.
Qed.
