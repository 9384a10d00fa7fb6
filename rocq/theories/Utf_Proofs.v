From Verif Require Import Base Utf_Model Utf_Spec.

Lemma get_char0 nc b r : get_char 0 nc (b :: r) = Ok (wrap 64 (nc + b), r).
Proof. reflexivity. Qed.
Lemma get_charS n nc b r : get_char (S n) nc (b :: r) = get_char n (wrap 64 (Z.shiftl (wrap 64 (nc + b)) 6)) r.
Proof. reflexivity. Qed.

Lemma shl6 v : Z.shiftl v 6 = v * 64.
Proof. rewrite Z.shiftl_mul_pow2 by lia. reflexivity. Qed.
Lemma wrap64 v : 0 <= v < 2 ^ 40 -> wrap 64 v = v.
Proof. intros. apply wrap_small. change (2 ^ 64) with 18446744073709551616. change (2 ^ 40) with 1099511627776 in *. lia. Qed.
Lemma wrap16 v : 0 <= v < 65536 -> wrap 16 v = v.
Proof. intros. apply wrap_small. change (2 ^ 16) with 65536. lia. Qed.
Ltac w64 := unfold wrap; change (2 ^ 64) with 18446744073709551616.

Lemma utf8_len c : 1 <= zlen (utf8 c) <= 4.
Proof. unfold utf8. destruct (c <? 128), (c <? 2048), (c <? 65536); unfold zlen; cbn [length]; lia. Qed.
Lemma utf16_len c : zlen (utf16 c) = if c <? 0x10000 then 1 else 2.
Proof. unfold utf16. destruct (c <? 65536); reflexivity. Qed.

(** one character *)
Lemma utf_step c fuel rest room pos done : scalar c -> 0 < room ->
  utf_loop (S fuel) (utf8 c ++ rest) room pos done =
  if zlen (utf16 c) <=? room then
    bindr (utf_loop fuel rest (room - zlen (utf16 c)) (pos + zlen (utf8 c)) (pos + zlen (utf8 c)))
          (fun '(l, d) => Ok (utf16 c ++ l, d))
  else Ok ([], done).
Proof.
  intros SC R. rewrite utf16_len. unfold scalar in SC.
  assert (RB : (room <=? 0) = false) by lia.
  unfold utf8, utf16. destruct (c <? 128) eqn:E1; [|destruct (c <? 2048) eqn:E2; [|destruct (c <? 65536) eqn:E3]].
  - cbn [app utf_loop]. rewrite RB, E1. rewrite get_char0. cbn [bindr].
    change (offset_utf8 (Z.of_nat 0)) with 0. cbv zeta.
    assert (V : wrap 64 (wrap 64 (0 + c) - 0) = c) by (w64; lia). rewrite V.
    replace (c <? 65536) with true by lia. replace (c <=? 65535) with true by lia.
    replace (1 <=? room) with true by lia.
    change (zlen [c]) with 1. replace (pos + 1 + Z.of_nat 0) with (pos + 1) by lia.
    rewrite wrap16 by lia. reflexivity.
  - cbn [app utf_loop]. rewrite RB.
    replace (192 + c / 64 <? 128) with false by lia. replace (192 + c / 64 <? 192) with false by lia.
    replace (192 + c / 64 <? 224) with true by lia.
    rewrite !zlen_cons. pose proof (zlen_nonneg rest). replace (1 + (1 + zlen rest) <=? 1) with false by lia.
    rewrite get_charS, get_char0. cbn [bindr].
    change (offset_utf8 (Z.of_nat 1)) with 12416. cbv zeta.
    assert (V : wrap 64 (wrap 64 (wrap 64 (Z.shiftl (wrap 64 (0 + (192 + c / 64))) 6) + (128 + c mod 64)) - 12416) = c) by (rewrite !shl6; w64; lia). rewrite V.
    replace (c <=? 65535) with true by lia. replace (c <? 65536) with true by lia.
    replace (1 <=? room) with true by lia. rewrite wrap16 by lia.
    change (zlen (@nil Z)) with 0. replace (pos + 1 + Z.of_nat 1) with (pos + (1 + (1 + 0))) by lia. reflexivity.
  - cbn [app utf_loop]. rewrite RB.
    replace (224 + c / 4096 <? 128) with false by lia. replace (224 + c / 4096 <? 192) with false by lia.
    replace (224 + c / 4096 <? 224) with false by lia. replace (224 + c / 4096 <? 240) with true by lia.
    rewrite !zlen_cons. pose proof (zlen_nonneg rest). replace (1 + (1 + (1 + zlen rest)) <=? 2) with false by lia.
    rewrite !get_charS, get_char0. cbn [bindr].
    change (offset_utf8 (Z.of_nat 2)) with 925824. cbv zeta.
    assert (V : wrap 64 (wrap 64 (wrap 64 (Z.shiftl (wrap 64 (wrap 64 (Z.shiftl (wrap 64 (0 + (224 + c / 4096))) 6) + (128 + c / 64 mod 64))) 6) + (128 + c mod 64)) - 925824) = c) by (rewrite !shl6; w64; lia). rewrite V.
    replace (c <=? 65535) with true by lia.
    replace (1 <=? room) with true by lia. rewrite wrap16 by lia.
    change (zlen (@nil Z)) with 0. replace (pos + 1 + Z.of_nat 2) with (pos + (1 + (1 + (1 + 0)))) by lia. reflexivity.
  - cbn [app utf_loop]. rewrite RB.
    replace (240 + c / 262144 <? 128) with false by lia. replace (240 + c / 262144 <? 192) with false by lia.
    replace (240 + c / 262144 <? 224) with false by lia. replace (240 + c / 262144 <? 240) with false by lia.
    replace (240 + c / 262144 <? 248) with true by lia.
    rewrite !zlen_cons. pose proof (zlen_nonneg rest). replace (1 + (1 + (1 + (1 + zlen rest))) <=? 3) with false by lia.
    rewrite !get_charS, get_char0. cbn [bindr].
    change (offset_utf8 (Z.of_nat 3)) with 63447168. cbv zeta.
    assert (V : wrap 64 (wrap 64 (wrap 64 (Z.shiftl (wrap 64 (wrap 64 (Z.shiftl (wrap 64 (wrap 64 (Z.shiftl (wrap 64 (0 + (240 + c / 262144))) 6) + (128 + c / 4096 mod 64))) 6) + (128 + c / 64 mod 64))) 6) + (128 + c mod 64)) - 63447168) = c) by (rewrite !shl6; w64; lia). rewrite V.
    replace (c <=? 65535) with false by lia.
    destruct (room <=? 1) eqn:R1.
    { replace (2 <=? room) with false by lia. reflexivity. }
    replace (2 <=? room) with true by lia.
    assert (V2 : wrap 64 (c - 65536) = c - 65536) by (w64; lia). rewrite V2.
    change 0x3ff with (Z.ones 10). rewrite Z.land_ones by lia. rewrite Z.shiftr_div_pow2 by lia. change (2 ^ 10) with 1024.
    rewrite !wrap16 by lia.
    change (zlen (@nil Z)) with 0. replace (pos + 1 + Z.of_nat 3) with (pos + (1 + (1 + (1 + (1 + 0))))) by lia.
    rewrite (Z.add_comm ((c - 65536) / 1024)), (Z.add_comm ((c - 65536) mod 1024)). reflexivity.
Qed.

Lemma utf_text cs : forall fuel room pos, Forall scalar cs -> 0 <= room ->
  (length (flat_map utf8 cs) < fuel)%nat ->
  utf_loop fuel (flat_map utf8 cs) room pos pos =
  Ok (flat_map utf16 (fit room cs), pos + zlen (flat_map utf8 (fit room cs))).
Proof.
  induction cs as [|c cs IH]; intros fuel room pos SC R F; cbn [flat_map fit].
  - destruct fuel; [cbn in F; lia|]. cbn [utf_loop]. change (zlen (@nil Z)) with 0. rewrite Z.add_0_r. reflexivity.
  - apply Forall_cons_iff in SC as [S1 SC]. destruct fuel; [lia|].
    pose proof (utf8_len c) as L8. pose proof (utf16_len c) as L16.
    cbn [flat_map] in F. rewrite app_length in F. unfold zlen in L8.
    destruct (Z.eq_dec room 0) as [->|NZ].
    + assert (X : utf_loop (S fuel) (utf8 c ++ flat_map utf8 cs) 0 pos pos = Ok ([], pos)).
      { destruct (utf8 c ++ flat_map utf8 cs); reflexivity. }
      rewrite X. replace (zlen (utf16 c) <=? 0) with false by (destruct (c <? 0x10000); lia).
      cbn [flat_map]. rewrite (@zlen_nil Z), Z.add_0_r. reflexivity.
    + rewrite utf_step by (auto; lia). destruct (zlen (utf16 c) <=? room) eqn:FT.
      * rewrite IH by (auto; lia). cbn [bindr flat_map]. rewrite zlen_app.
        do 2 f_equal. lia.
      * cbn [flat_map]. rewrite (@zlen_nil Z), Z.add_0_r. reflexivity.
Qed.

Lemma fit_all cs : forall n, zlen (flat_map utf16 cs) <= n -> fit n cs = cs.
Proof.
  induction cs as [|c cs IH]; intros n H; cbn [fit flat_map] in *; [reflexivity|].
  rewrite zlen_app in H. pose proof (zlen_nonneg (flat_map utf16 cs)).
  destruct (zlen (utf16 c) <=? n) eqn:E; [|lia]. rewrite IH by lia. reflexivity.
Qed.
Lemma utf16_le_utf8 cs : zlen (flat_map utf16 cs) <= zlen (flat_map utf8 cs).
Proof.
  induction cs as [|c cs IH]; cbn [flat_map]; [lia|]. rewrite !zlen_app.
  assert (zlen (utf16 c) <= zlen (utf8 c)); [|lia].
  unfold utf16, utf8. destruct (c <? 65536) eqn:A, (c <? 128) eqn:B, (c <? 2048) eqn:C; unfold zlen; cbn [length]; lia.
Qed.

Theorem utf8_to_utf16 cs max : Forall scalar cs -> 0 <= max ->
  UTF8toWideChar (flat_map utf8 cs) max = Ok (flat_map utf16 (fit max cs), zlen (flat_map utf8 (fit max cs))).
Proof. intros S M. unfold UTF8toWideChar. rewrite utf_text by (auto; lia). reflexivity. Qed.

(** arbitrary bytes *)
Lemma get_char_ok n : forall nc src, (n < length src)%nat ->
  exists v rest, get_char n nc src = Ok (v, rest) /\ 0 <= v < 2 ^ 64 /\ rest = skipn (S n) src.
Proof.
  induction n; intros nc src L; destruct src as [|b src]; cbn [length] in L; try lia.
  - exists (wrap 64 (nc + b)), src. split; [reflexivity|]. split; [apply wrap_range; lia|reflexivity].
  - rewrite get_charS. destruct (IHn (wrap 64 (Z.shiftl (wrap 64 (nc + b)) 6)) src ltac:(lia)) as (v & rest & A & B & C).
    exists v, rest. split; [exact A|]. split; [exact B|exact C].
Qed.

Definition unit16 (u : Z) : Prop := 0 <= u < 65536.
Lemma wrap16_unit v : unit16 (wrap 16 v).
Proof. pose proof (wrap_range 16 v ltac:(lia)) as H. change (2 ^ 16) with 65536 in H. exact H. Qed.

Lemma utf_any fuel : forall src room pos done, (length src < fuel)%nat -> 0 <= room ->
  done <= pos ->
  exists l d, utf_loop fuel src room pos done = Ok (l, d) /\ zlen l <= room /\ Forall unit16 l /\
    done <= d <= pos + zlen src.
Proof.
  induction fuel as [|fuel IH]; intros src room pos done F R D; [lia|].
  destruct src as [|b rest].
  { exists [], done. cbn [utf_loop]. rewrite !(@zlen_nil Z). split; [reflexivity|]. split; [lia|]. split; [apply Forall_nil|lia]. }
  cbn [length] in F. cbn [utf_loop]. rewrite zlen_cons. pose proof (zlen_nonneg rest) as ZR.
  assert (STOP : exists l d, Ok (@nil Z, done) = Ok (l, d) /\ zlen l <= room /\ Forall unit16 l /\ done <= d <= pos + (1 + zlen rest)).
  { exists [], done. rewrite (@zlen_nil Z). split; [reflexivity|]. split; [lia|]. split; [apply Forall_nil|lia]. }
  destruct (room <=? 0) eqn:R0; [exact STOP|].
  assert (SKIP : exists l d, utf_loop fuel rest room (pos + 1) (pos + 1) = Ok (l, d) /\ zlen l <= room /\ Forall unit16 l /\ done <= d <= pos + (1 + zlen rest)).
  { destruct (IH rest room (pos + 1) (pos + 1)) as (l & d & E & A & B & C); [lia|lia|lia|].
    exists l, d. split; [exact E|]. split; [exact A|]. split; [exact B|lia]. }
  assert (CONV : forall n, (n < length (b :: rest))%nat -> exists l d,
    bindr (get_char n 0 (b :: rest)) (fun '(nChar, rest0) =>
      let pos := pos + 1 + Z.of_nat n in
      let nChar := wrap 64 (nChar - offset_utf8 (Z.of_nat n)) in
      if nChar <=? 0xFFFF then
        bindr (utf_loop fuel rest0 (room - 1) pos pos) (fun '(l, d) => Ok (wrap 16 nChar :: l, d))
      else if room <=? 1 then Ok ([], done)
      else let nChar := wrap 64 (nChar - 0x10000) in
        bindr (utf_loop fuel rest0 (room - 2) pos pos)
          (fun '(l, d) => Ok (wrap 16 (Z.shiftr nChar 10 + 0xD800) :: wrap 16 (Z.land nChar 0x3ff + 0xDC00) :: l, d)))
    = Ok (l, d) /\ zlen l <= room /\ Forall unit16 l /\ done <= d <= pos + (1 + zlen rest)).
  { intros n NL. destruct (get_char_ok n 0 (b :: rest) NL) as (v & rest0 & E & V & RS). rewrite E. cbn [bindr]. cbv zeta.
    cbn [skipn] in RS. cbn [length] in NL.
    assert (RL : zlen rest0 = zlen rest - Z.of_nat n) by (subst rest0; unfold zlen; rewrite skipn_length; lia).
    destruct (wrap 64 (v - offset_utf8 (Z.of_nat n)) <=? 65535).
    - destruct (IH rest0 (room - 1) (pos + 1 + Z.of_nat n) (pos + 1 + Z.of_nat n)) as (l & d & E1 & A & B & C);
        [unfold zlen in RL; lia|lia|lia|].
      rewrite E1. cbn [bindr]. eexists _, d. split; [reflexivity|]. rewrite zlen_cons. split; [lia|].
      split; [apply Forall_cons; [apply wrap16_unit|exact B]|lia].
    - destruct (room <=? 1) eqn:R1; [exact STOP|].
      destruct (IH rest0 (room - 2) (pos + 1 + Z.of_nat n) (pos + 1 + Z.of_nat n)) as (l & d & E1 & A & B & C);
        [unfold zlen in RL; lia|lia|lia|].
      rewrite E1. cbn [bindr]. eexists _, d. split; [reflexivity|]. rewrite !zlen_cons. split; [lia|].
      split; [apply Forall_cons; [apply wrap16_unit|apply Forall_cons; [apply wrap16_unit|exact B]]|lia]. }
  assert (ZL : zlen rest = Z.of_nat (length rest)) by reflexivity.
  destruct (b <? 128); [apply CONV; cbn [length]; lia|].
  destruct (b <? 192); [exact SKIP|].
  destruct (b <? 224); [destruct (1 + zlen rest <=? 1) eqn:Q; [exact STOP|apply CONV; cbn [length]; lia]|].
  destruct (b <? 240); [destruct (1 + zlen rest <=? 2) eqn:Q; [exact STOP|apply CONV; cbn [length]; lia]|].
  destruct (b <? 248); [destruct (1 + zlen rest <=? 3) eqn:Q; [exact STOP|apply CONV; cbn [length]; lia]|].
  exact SKIP.
Qed.
