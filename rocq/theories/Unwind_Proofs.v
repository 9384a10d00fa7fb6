(** Unwind data: what is written is what is read. *)
From Coq Require Import List ZArith Bool Lia.
From Verif Require Import Base Unwind_Model Unwind_Spec.
Import ListNotations.
Open Scope Z_scope.

Local Arguments wrap : simpl never.
Local Arguments swrap : simpl never.
Local Arguments Z.modulo : simpl never.
Local Arguments Z.div : simpl never.
Local Arguments Z.pow : simpl never.
Local Arguments Z.mul : simpl never.
Local Arguments Z.add : simpl never.
Local Arguments Z.shiftr : simpl never.
Local Arguments Z.land : simpl never.

Lemma land7 u : Z.land u 7 = u mod 8.
Proof. exact (Z.land_ones u 3 ltac:(lia)). Qed.
Lemma land15 u : Z.land u 15 = u mod 16.
Proof. exact (Z.land_ones u 4 ltac:(lia)). Qed.
Lemma landFFFF u : Z.land u 0xFFFF = u mod 65536.
Proof. exact (Z.land_ones u 16 ltac:(lia)). Qed.
Ltac nums := change (2 ^ 32) with 4294967296 in *; change (2 ^ 19) with 524288 in *; change (2 ^ 20) with 1048576 in *; change (2 ^ 16) with 65536 in *;
  change (2 ^ 8) with 256 in *; change (2 ^ 4) with 16 in *; change (2 ^ 3) with 8 in *; change (2 ^ 64) with 18446744073709551616 in *; change (2 ^ (32 - 1)) with 2147483648 in *.

Definition is_word (w : Z) : Prop := 0 <= w < 65536.
Lemma code_word_facts o op r : 0 <= op < 16 -> 0 <= r < 16 ->
  is_word (code_word o op r) /\ code_word o op r mod 256 = wrap 8 o /\ code_word o op r / 256 mod 16 = op /\ code_word o op r / 4096 = r.
Proof.
  intros Ho Hr. unfold code_word, is_word. rewrite (wrap_small 4 op), (wrap_small 4 r) by (nums; lia).
  pose proof (wrap_range 8 o ltac:(lia)) as H. nums. repeat split; lia.
Qed.
Lemma code_word_range o op r : is_word (code_word o op r).
Proof.
  unfold code_word, is_word. pose proof (wrap_range 8 o ltac:(lia)). pose proof (wrap_range 4 op ltac:(lia)). pose proof (wrap_range 4 r ltac:(lia)). nums. lia.
Qed.
Lemma frame_word_range v : is_word (frame_word v).
Proof. unfold frame_word, is_word. pose proof (wrap_range 16 v ltac:(lia)). nums. lia. Qed.

(** * The words of one directive *)
Definition words_of (cur : Z) (d : directive) : list Z :=
  let ofs := wrap 8 cur in
  match d with
  | DAllocStack v =>
      if v >? 128 then if v >=? 524288 then [frame_word (v / 65536); frame_word (v mod 65536); code_word ofs 1 1] else [frame_word (v / 8); code_word ofs 1 0]
      else [code_word ofs 2 ((v - 8) / 8)]
  | DEndProlog => []
  | DPushFrame c => [code_word ofs 10 (if c then 1 else 0)]
  | DPushReg r => [code_word ofs 0 r]
  | DSaveReg r v => [frame_word (v / 8); code_word ofs 4 r]
  | DSaveVec r v => [frame_word (v / 16); code_word ofs 8 r]
  | DSetFrame r v => [code_word ofs 3 r]
  end.
Definition after (s : unw) (cur : Z) (d : directive) : unw :=
  let f := match d with DSetFrame r v => (wrap 4 r, wrap 4 (v / 16)) | _ => (frame_reg s, frame_ofs s) end in
  {| codes := codes s ++ words_of cur d; size_of_prolog := match d with DEndProlog => wrap 8 cur | _ => size_of_prolog s end;
     frame_reg := fst f; frame_ofs := snd f; endprolog := match d with DEndProlog => true | _ => endprolog s end |}.

Lemma words_of_len cur d : plain_operands d -> zlen (words_of cur d) = room_of d.
Proof.
  destruct d; cbn [words_of room_of plain_operands]; intros H; try reflexivity.
  rewrite Z.gtb_ltb, Z.geb_leb. nums. destruct (Z.ltb_spec 128 v), (Z.leb_spec v 128); try lia; try reflexivity.
  destruct (Z.leb_spec 524288 v), (Z.ltb_spec v 524288); try lia; reflexivity.
Qed.

Lemma add_codes_eq s l : zlen (codes s) <= 255 -> zlen l <= 3 ->
  add_codes s l = if zlen (codes s) + zlen l <=? 255
    then Ok {| codes := codes s ++ l; size_of_prolog := size_of_prolog s; frame_reg := frame_reg s; frame_ofs := frame_ofs s; endprolog := endprolog s |}
    else Err.
Proof.
  intros H Hl. unfold add_codes. pose proof (zlen_nonneg (codes s)). pose proof (zlen_nonneg l).
  destruct (Z.leb_spec (zlen (codes s) + zlen l) 255).
  - rewrite wrap_small by (nums; lia). destruct (Z.ltb_spec (zlen (codes s) + zlen l) (zlen (codes s))); [lia|]. reflexivity.
  - assert (E : wrap 8 (zlen (codes s) + zlen l) = zlen (codes s) + zlen l - 256) by (unfold wrap; nums; lia). rewrite E.
    destruct (Z.ltb_spec (zlen (codes s) + zlen l - 256) (zlen (codes s))); [reflexivity|lia].
Qed.

Lemma step_plain s cur d : plain_operands d -> zlen (codes s) <= 255 ->
  ExcFrameDirective s cur d =
    if endprolog s then Err
    else if zlen (codes s) + room_of d <=? 255 then
      match d with DEndProlog => if wrap 32 cur >? 255 then Err else Ok (after s cur d) | _ => Ok (after s cur d) end
    else Err.
Proof.
  intros Hp Hs. unfold ExcFrameDirective. destruct (endprolog s) eqn:Ee; [reflexivity|].
  pose proof (words_of_len cur d Hp) as Hlen.
  assert (Hadd : forall s' l, codes s' = codes s -> l = words_of cur d -> zlen l <= 3 ->
    add_codes s' l = if zlen (codes s) + room_of d <=? 255 then Ok {| codes := codes s' ++ l; size_of_prolog := size_of_prolog s'; frame_reg := frame_reg s'; frame_ofs := frame_ofs s'; endprolog := endprolog s' |} else Err).
  { intros s' l E -> Hl. rewrite add_codes_eq by (rewrite ?E; auto). rewrite E, Hlen. reflexivity. }
  destruct d; cbn [plain_operands] in Hp; unfold after; cbn [fst snd].
  - cbv zeta. rewrite (Z.shiftr_div_pow2 v 32), (wrap_small 32 v) by (nums; lia). nums.
    rewrite (wrap_small 32 (v / 4294967296)) by (nums; lia).
    destruct (Z.eqb_spec (v / 4294967296) 0); [cbn [negb]|lia]. destruct (Z.eqb_spec v 0); [lia|].
    rewrite land7. destruct (Z.eqb_spec (v mod 8) 0); [cbn [negb]|lia].
    rewrite landFFFF. rewrite !Z.shiftr_div_pow2 by lia. nums. change (16 * 8) with 128. change (65536 * 8) with 524288.
    cbn [words_of] in *. destruct (v >? 128) eqn:E1.
    + destruct (v >=? 524288) eqn:E2; (etransitivity; [apply Hadd; [reflexivity|cbn [words_of]; try rewrite E1; try rewrite E2; reflexivity|unfold zlen; cbn [length]; lia]|]); rewrite ?E1, ?E2; reflexivity.
    + (etransitivity; [apply Hadd; [reflexivity|cbn [words_of]; try rewrite E1; try rewrite E2; reflexivity|unfold zlen; cbn [length]; lia]|]); rewrite ?E1; reflexivity.
  - cbn [room_of]. rewrite Z.add_0_r. destruct (Z.leb_spec (zlen (codes s)) 255); [|lia]. cbn [words_of]. rewrite app_nil_r. reflexivity.
  - etransitivity; [apply Hadd; [reflexivity|cbn [words_of]; try rewrite E1; try rewrite E2; reflexivity|unfold zlen; cbn [length]; lia]|]. reflexivity.
  - etransitivity; [apply Hadd; [reflexivity|cbn [words_of]; try rewrite E1; try rewrite E2; reflexivity|unfold zlen; cbn [length]; lia]|]. reflexivity.
  - unfold save. rewrite swrap_small by (nums; lia). cbv zeta. change (8 - 1) with 7. rewrite land7. destruct (Z.eqb_spec (v mod 8) 0); [cbn [negb]|lia].
    rewrite wrap_small by (nums; lia). change (65536 * 8) with 524288. rewrite Z.gtb_ltb. nums. destruct (Z.ltb_spec 524288 v); [lia|].
    change (Z.log2 8) with 3. rewrite Z.shiftr_div_pow2 by lia. nums. etransitivity; [apply Hadd; [reflexivity|cbn [words_of]; try rewrite E1; try rewrite E2; reflexivity|unfold zlen; cbn [length]; lia]|]. reflexivity.
  - unfold save. rewrite swrap_small by (nums; lia). cbv zeta. change (16 - 1) with 15. rewrite land15. destruct (Z.eqb_spec (v mod 16) 0); [cbn [negb]|lia].
    rewrite wrap_small by (nums; lia). change (65536 * 16) with 1048576. rewrite Z.gtb_ltb. nums. destruct (Z.ltb_spec 1048576 v); [lia|].
    change (Z.log2 16) with 4. rewrite Z.shiftr_div_pow2 by lia. nums. etransitivity; [apply Hadd; [reflexivity|cbn [words_of]; try rewrite E1; try rewrite E2; reflexivity|unfold zlen; cbn [length]; lia]|]. reflexivity.
  - cbv zeta. rewrite swrap_small by (nums; lia). rewrite land15. destruct (Z.eqb_spec (v mod 16) 0); [cbn [negb]|lia].
    rewrite wrap_small by (nums; lia). rewrite Z.gtb_ltb. destruct (Z.ltb_spec 240 v); [lia|].
    rewrite Z.shiftr_div_pow2 by lia. nums. etransitivity; [apply Hadd; [reflexivity|cbn [words_of]; try rewrite E1; try rewrite E2; reflexivity|unfold zlen; cbn [length]; lia]|]. cbn [endprolog]. rewrite Ee. reflexivity.
Qed.

(** * Acceptance *)
Lemma after_len s cur d : plain_operands d -> zlen (codes (after s cur d)) = zlen (codes s) + room_of d.
Proof. intros H. unfold after. cbn [codes]. rewrite zlen_app, words_of_len by auto. reflexivity. Qed.
Definition afters (s : unw) (l : list (Z * directive)) : unw := fold_left (fun s '(c, d) => after s c d) l s.
Lemma room_nonneg d : 0 <= room_of d.
Proof. destruct d; cbn [room_of]; try lia. destruct (v <=? 128), (v <? 2 ^ 19); lia. Qed.
Lemma rooms_nonneg l : 0 <= rooms l.
Proof. induction l as [|[c d] r IH]; cbn [rooms fold_right]; [lia|]. pose proof (room_nonneg d). fold (rooms r). lia. Qed.

Lemma directives_plain l : forall s, Forall (fun '(c, d) => 0 <= c < 2 ^ 32 /\ plain_operands d) l -> zlen (codes s) <= 255 -> endprolog s = false ->
  forall s', directives s l = Ok s' <-> s' = afters s l /\ zlen (codes s) + rooms l <= 255 /\ closed_well l.
Proof.
  assert (Einj : forall a b : unw, Ok a = Ok b -> a = b) by congruence.
  induction l as [|[c d] r IH]; intros s Hp Hs He s'.
  - cbn. rewrite Z.add_0_r. split; [intros E; apply Einj in E; auto|intros (-> & _); reflexivity].
  - apply Forall_cons_iff in Hp as [[Hc Hd] Hr]. cbn [directives afters fold_left rooms fold_right]. fold (rooms r). fold (afters (after s c d) r).
    rewrite (step_plain s c d Hd Hs), He. pose proof (room_nonneg d) as Hn. pose proof (rooms_nonneg r) as Hrn.
    destruct (Z.leb_spec (zlen (codes s) + room_of d) 255) as [Hl|Hl]; cbn [bindr]; [|split; [discriminate|intros (_ & H & _); lia]].
    assert (Hcase : (exists c0, d = DEndProlog /\ c0 = c) \/ (d <> DEndProlog)) by (destruct d; eauto; right; discriminate).
    destruct Hcase as [(? & -> & _)|Hne].
    + rewrite Z.gtb_ltb, wrap_small by lia. cbn [closed_well]. destruct (Z.ltb_spec 255 c).
      { split; [discriminate|lia]. }
      cbn [bindr]. destruct r as [|[c2 d2] r2].
      * cbn. split; [intros E; apply Einj in E; subst; repeat split; auto; cbn in *; lia|intros (-> & _); reflexivity].
      * split; [|intros (_ & _ & _ & X); discriminate]. cbn [directives]. intros X. unfold ExcFrameDirective in X. cbn in X. discriminate.
    + assert (Ec : closed_well ((c, d) :: r) = closed_well r) by (destruct d; try reflexivity; congruence). rewrite Ec.
      assert (Es : forall x, match d with DEndProlog => if wrap 32 c >? 255 then Err else Ok (after s c d) | _ => Ok (after s c d) end = x -> Ok (after s c d) = x) by (intros x <-; destruct d; try reflexivity; congruence).
      assert (Eb : bindr (match d with DEndProlog => if wrap 32 c >? 255 then Err else Ok (after s c d) | _ => Ok (after s c d) end) (fun s0 => directives s0 r) = directives (after s c d) r).
      { destruct (Es _ eq_refl). reflexivity. }
      rewrite Eb. rewrite (IH (after s c d) Hr); rewrite ?after_len by auto; [|lia|unfold after; destruct d; cbn; auto; congruence].
      rewrite Z.add_assoc. reflexivity.
Qed.

(** * Reading the codes *)
Lemma ops_of cur d r : plain_operands d -> 0 <= cur < 256 ->
  ops (rev (words_of cur d) ++ r) = match announces d with
    | None => ops r
    | Some u => match ops r with Some l => Some ((cur, u) :: l) | None => None end end.
Proof.
  intros Hp Hc.
  assert (Hw : wrap 8 (wrap 8 cur) = cur) by (rewrite !(wrap_small 8 cur) by (nums; lia); reflexivity).
  destruct d; cbn [words_of announces plain_operands] in *; unfold is_reg in *.
  - nums. destruct (v >? 128) eqn:E1; [destruct (v >=? 524288) eqn:E2|]; cbn [rev app ops].
    + destruct (code_word_facts (wrap 8 cur) 1 1 ltac:(lia) ltac:(lia)) as (_ & -> & -> & ->). rewrite Hw. cbn [Z.eqb Pos.eqb].
      replace (frame_word (v mod 65536) + 65536 * frame_word (v / 65536)) with v; [reflexivity|].
      unfold frame_word. rewrite !wrap_small by (nums; lia). lia.
    + destruct (code_word_facts (wrap 8 cur) 1 0 ltac:(lia) ltac:(lia)) as (_ & -> & -> & ->). rewrite Hw. cbn [Z.eqb].
      replace (8 * frame_word (v / 8)) with v; [reflexivity|]. unfold frame_word. rewrite !wrap_small by (nums; lia). lia.
    + destruct (code_word_facts (wrap 8 cur) 2 ((v - 8) / 8) ltac:(lia) ltac:(lia)) as (_ & -> & -> & ->). rewrite Hw.
      replace (8 * ((v - 8) / 8) + 8) with v by lia. reflexivity.
  - reflexivity.
  - cbn [rev app ops]. destruct (code_word_facts (wrap 8 cur) 10 (if code then 1 else 0) ltac:(lia) ltac:(destruct code; lia)) as (_ & -> & -> & ->). rewrite Hw.
    destruct code; reflexivity.
  - cbn [rev app ops]. destruct (code_word_facts (wrap 8 cur) 0 r0 ltac:(lia) Hp) as (_ & -> & -> & ->). rewrite Hw. reflexivity.
  - cbn [rev app ops]. destruct Hp as (Hr & Hv & Ha). destruct (code_word_facts (wrap 8 cur) 4 r0 ltac:(lia) Hr) as (_ & -> & -> & ->). rewrite Hw.
    nums. replace (8 * frame_word (v / 8)) with v; [reflexivity|]. unfold frame_word. rewrite !wrap_small by (nums; lia). lia.
  - cbn [rev app ops]. destruct Hp as (Hr & Hv & Ha). destruct (code_word_facts (wrap 8 cur) 8 r0 ltac:(lia) Hr) as (_ & -> & -> & ->). rewrite Hw.
    nums. replace (16 * frame_word (v / 16)) with v; [reflexivity|]. unfold frame_word. rewrite !wrap_small by (nums; lia). lia.
  - cbn [rev app ops]. destruct Hp as (Hr & _). destruct (code_word_facts (wrap 8 cur) 3 r0 ltac:(lia) Hr) as (_ & -> & -> & _). rewrite Hw. reflexivity.
Qed.

Lemma announced_cons c d l : announced ((c, d) :: l) = match announces d with Some u => [(c, u)] | None => [] end ++ announced l.
Proof. reflexivity. Qed.
Lemma afters_codes l : forall s, codes (afters s l) = codes s ++ concat (map (fun '(c, d) => words_of c d) l).
Proof.
  induction l as [|[c d] r IH]; intros s; cbn [afters fold_left map concat]; [now rewrite app_nil_r|].
  fold (afters (after s c d) r). rewrite IH. unfold after. cbn [codes]. now rewrite app_assoc.
Qed.
Lemma ops_all l r : Forall (fun '(c, d) => 0 <= c < 256 /\ plain_operands d) l ->
  ops (rev (concat (map (fun '(c, d) => words_of c d) l)) ++ r) = match ops r with Some x => Some (rev (announced l) ++ x) | None => None end.
Proof.
  revert r. induction l as [|[c d] l IH]; intros r H; cbn [map concat].
  - cbn. destruct (ops r); reflexivity.
  - apply Forall_cons_iff in H as [[Hc Hd] Hl]. rewrite rev_app_distr, <- app_assoc, IH, (ops_of c d r Hd Hc) by auto.
    rewrite announced_cons. destruct (announces d); cbn [app]; [|reflexivity]. destruct (ops r); [|reflexivity]. cbn [rev app]. now rewrite <- app_assoc.
Qed.

Lemma afters_frame l : forall s f, frame_reg s = wrap 4 (fst f) -> frame_ofs s = wrap 4 (snd f / 16) ->
  let g := fold_left (fun f '(_, d) => match d with DSetFrame r v => (r, v) | _ => f end) l f in
  frame_reg (afters s l) = wrap 4 (fst g) /\ frame_ofs (afters s l) = wrap 4 (snd g / 16).
Proof.
  induction l as [|[c d] r IH]; intros s f H1 H2; cbn [afters fold_left]; [auto|]. fold (afters (after s c d) r).
  apply IH; unfold after; destruct d; cbn; auto.
Qed.
Lemma frame_of_ok l : Forall (fun '(c, d) => plain_operands d) l -> let f := frame_of l in is_reg (fst f) /\ 0 <= snd f <= 240 /\ snd f mod 16 = 0.
Proof.
  unfold frame_of. assert (H0 : is_reg (fst (0, 0)) /\ 0 <= snd (0, 0) <= 240 /\ snd (0, 0) mod 16 = 0) by (cbn; unfold is_reg; repeat split; try lia).
  revert H0. generalize (0, 0) as f. induction l as [|[c d] r IH]; intros f Hf Hl; cbn [fold_left]; [exact Hf|].
  apply Forall_cons_iff in Hl as [Hd Hr]. apply IH; auto. destruct d; auto. 
Qed.

Lemma words_read l r : Forall is_word l -> words (length l) (concat (map (le_bytes 2) l) ++ r) = Some (l, r).
Proof.
  induction l as [|w l IH]; intros H; [reflexivity|]. apply Forall_cons_iff in H as [Hw Hl]. cbn [length map concat]. rewrite <- app_assoc. change (le_bytes 2 w) with [w mod 256; w / 256 mod 256]. cbn [app words].
  rewrite IH by auto. unfold word. unfold is_word in Hw. replace (w mod 256 + 256 * (w / 256 mod 256)) with w by lia. reflexivity.
Qed.
Lemma words_of_range cur d : Forall is_word (words_of cur d).
Proof.
  pose proof code_word_range. pose proof frame_word_range.
  destruct d; cbn [words_of]; repeat first [apply Forall_nil | apply Forall_cons; [solve [auto]|]]. destruct (v >? 128); [destruct (v >=? 524288)|]; repeat first [apply Forall_nil | apply Forall_cons; [solve [auto]|]].
Qed.

Lemma concat_words_len l : zlen (concat (map (le_bytes 2) l)) = 2 * zlen l.
Proof. induction l as [|w l IH]; [reflexivity|]. cbn [map concat]. rewrite zlen_app, IH, zlen_cons. unfold zlen at 1. rewrite le_bytes_length. lia. Qed.

Lemma dword_bytes a rest : 0 <= a < 2 ^ 32 ->
  match le_bytes 4 a ++ rest with a :: b :: c :: d :: _ => Some (word (word a b) 0 + 65536 * word c d) | _ => None end = Some a.
Proof. intros H. cbn [le_bytes app]. unfold word. nums. f_equal. lia. Qed.

(** the item in general *)
Lemma item_read s h pos o : pos mod 4 = 0 -> zlen (codes s) <= 255 -> Forall is_word (codes s) -> ops (rev (codes s)) = Some o ->
  0 <= frame_reg s < 16 -> 0 <= frame_ofs s < 16 -> match h with Some a => 0 <= a < 2 ^ 32 | None => True end ->
  forall rest, read_info (xdata_item s h pos ++ rest) =
    Some ({| u_flags := match h with Some _ => 3 | None => 0 end; u_prolog := size_of_prolog s; u_freg := frame_reg s; u_fofs := 16 * frame_ofs s; u_ops := o |}, h).
Proof.
  intros Hpos Hlen Hw Ho Hr Hf Hh rest. unfold xdata_item. cbv zeta.
  set (cs := concat (map (le_bytes 2) (rev (codes s)))).
  set (hd := match h with Some _ => _ | None => _ end).
  assert (Ehd : UNW_VERSION + Z.shiftl hd 3 = if h then 25 else 1) by (unfold hd; destruct h; reflexivity).
  assert (Hcs : zlen cs = 2 * zlen (codes s)) by (unfold cs; rewrite concat_words_len; f_equal; unfold zlen; now rewrite rev_length).
  rewrite zlen_app, Hcs. set (pad := repeat 0 _). set (tail := match h with Some a => _ | None => _ end).
  rewrite <- !app_assoc. cbn [app]. unfold read_info. rewrite Ehd.
  replace (if h then 25 else 1) with (if h then 1 + 24 else 1 + 0) by (destruct h; reflexivity).
  assert (E1 : (if h then 1 + 24 else 1 + 0) mod 8 = 1) by (destruct h; reflexivity). rewrite E1. cbn [Z.eqb Pos.eqb negb].
  assert (E2 : (if h then 1 + 24 else 1 + 0) / 8 = if h then 3 else 0) by (destruct h; reflexivity). rewrite E2.
  unfold cs. replace (Z.to_nat (zlen (codes s))) with (length (rev (codes s))) by (rewrite rev_length; unfold zlen; lia).
  rewrite words_read by (apply Forall_rev; auto). rewrite Ho. fold cs.
  rewrite Z.shiftl_mul_pow2 by lia. nums.
  replace ((frame_reg s + frame_ofs s * 16) mod 16) with (frame_reg s) by lia.
  replace ((frame_reg s + frame_ofs s * 16) / 16) with (frame_ofs s) by lia.
  assert (Epad : length pad = Z.to_nat (2 * (zlen (codes s) mod 2))).
  { unfold pad. rewrite repeat_length. f_equal. change (zlen [_; _; _; _]) with 4. pose proof (zlen_nonneg (codes s)). lia. }
  assert (Epar : (if zlen (codes s) mod 2 =? 0 then Some (pad ++ tail ++ rest) else match pad ++ tail ++ rest with _ :: _ :: r => Some r | _ => None end) = Some (tail ++ rest)).
  { destruct (Z.eqb_spec (zlen (codes s) mod 2) 0) as [E|E].
    - rewrite E in Epad. destruct pad; [reflexivity|discriminate].
    - replace (zlen (codes s) mod 2) with 1 in Epad by lia. destruct pad as [|x [|y [|z pad]]]; cbn in Epad; try discriminate. reflexivity. }
  rewrite Epar. unfold tail. destruct h as [a|]; cbn [Z.eqb].
  - rewrite <- app_assoc. pose proof (dword_bytes a (le_bytes 4 0 ++ rest) Hh) as E. cbn [le_bytes app] in *. injection E as E; rewrite E; reflexivity.
  - reflexivity.
Qed.

(** the end of the prologue *)
Lemma closed_split l : closed_well l -> endprolog (afters unw0 l) = true -> exists k c, l = k ++ [(c, DEndProlog)] /\ c <= 255.
Proof.
  assert (G : forall l s, endprolog s = false -> closed_well l -> endprolog (afters s l) = true -> exists k c, l = k ++ [(c, DEndProlog)] /\ c <= 255).
  { induction l0 as [|[c d] r IH]; intros s Hs Hc He.
    - cbn in He. congruence.
    - assert (Hd : d = DEndProlog \/ d <> DEndProlog) by (destruct d; auto; right; discriminate). destruct Hd as [-> |Hd].
      + cbn in Hc. destruct Hc as [Hc ->]. exists [], c. auto.
      + assert (Ec : closed_well r) by (destruct d; auto; congruence).
        destruct (IH (after s c d)) as (k & c0 & E & H0); auto.
        * unfold after; destruct d; cbn; auto; congruence.
        * subst r. exists ((c, d) :: k), c0. auto. }
  apply G. reflexivity.
Qed.
Lemma ordered_bounds l : forall from k c d, l = k ++ [(c, d)] -> ordered from l -> Forall (fun '(x, _) => from <= x <= c) l.
Proof.
  induction l as [|[x e] r IH]; intros from k c d E H; [constructor|]. cbn in H. destruct H as [Hx Hr].
  destruct k as [|[y f] k]; cbn in E.
  - assert (x = c /\ r = []) as [-> ->] by (split; congruence). repeat constructor; auto. lia.
  - assert (r = k ++ [(c, d)]) as Er by congruence. pose proof (IH x k c d Er Hr) as F. constructor.
    + split; [exact Hx|]. rewrite Er in F. apply Forall_app in F as [_ F]. inversion F; subst. lia.
    + eapply Forall_impl; [|exact F]. intros [z w]. lia.
Qed.
Lemma afters_size k c s : size_of_prolog (afters s (k ++ [(c, DEndProlog)])) = wrap 8 c.
Proof. unfold afters. rewrite fold_left_app. cbn [fold_left]. reflexivity. Qed.

Theorem xdata_decodes l s h pos : directives unw0 l = Ok s -> endprolog s = true ->
  Forall (fun '(_, d) => plain_operands d) l -> ordered 0 l -> Forall (fun '(c, _) => c < 2 ^ 32) l ->
  pos mod 4 = 0 -> match h with Some a => 0 <= a < 2 ^ 32 | None => True end ->
  exists k c, l = k ++ [(c, DEndProlog)] /\ 0 <= c <= 255 /\
  forall rest, read_info (xdata_item s h pos ++ rest) =
    Some ({| u_flags := match h with Some _ => 3 | None => 0 end; u_prolog := c; u_freg := fst (frame_of l); u_fofs := snd (frame_of l); u_ops := rev (announced l) |}, h).
Proof.
  intros E He Hp Ho Hc32 Hpos Hh.
  assert (H0 : Forall (fun '(x, _) => 0 <= x) l).
  { assert (G : forall from, 0 <= from -> ordered from l -> Forall (fun '(x, _) => 0 <= x) l).
    { clear. induction l as [|[x d] r IH]; intros from Hf H; constructor; cbn in H; [lia|]. destruct H as [H1 H2]. apply (IH x); [lia|auto]. }
    apply (G 0); [lia|auto]. }
  assert (Hall : Forall (fun '(c, d) => 0 <= c < 2 ^ 32 /\ plain_operands d) l).
  { rewrite Forall_forall in *. intros [c d] Hin. specialize (Hp _ Hin). specialize (Hc32 _ Hin). specialize (H0 _ Hin). cbn in *. auto. }
  apply (directives_plain l unw0 Hall) in E as (-> & Hroom & Hcl); [|change (zlen (codes unw0)) with 0; lia|reflexivity].
  destruct (closed_split l Hcl He) as (k & c & El & Hc). exists k, c. split; [exact El|].
  pose proof (ordered_bounds l 0 k c DEndProlog El Ho) as Hb.
  assert (Hc0 : 0 <= c). { rewrite El in Hb. apply Forall_app in Hb as [_ F]. inversion F; subst. lia. }
  split; [lia|]. intros rest.
  destruct (afters_frame l unw0 (0, 0) eq_refl eq_refl) as [Ef1 Ef2]. fold (frame_of l) in Ef1, Ef2.
  destruct (frame_of_ok l Hp) as (Hf1 & Hf2 & Hf3). unfold is_reg in Hf1.
  rewrite wrap_small in Ef1 by (nums; lia). rewrite wrap_small in Ef2 by (nums; lia).
  rewrite (item_read (afters unw0 l) h pos (rev (announced l))).
  - rewrite Ef1, Ef2. rewrite El at 1. rewrite afters_size, wrap_small by (nums; lia). do 3 f_equal. lia.
  - exact Hpos.
  - rewrite afters_codes. cbn [codes unw0 app]. clear - Hroom Hp.
    assert (G : zlen (concat (map (fun '(c, d) => words_of c d) l)) = rooms l).
    { clear Hroom. induction l as [|[c d] r IH]; [reflexivity|]. inversion Hp; subst. cbn [map concat rooms fold_right]. rewrite zlen_app, words_of_len, IH by auto. reflexivity. }
    rewrite G. cbn [codes unw0] in Hroom. change (zlen (@nil Z)) with 0 in Hroom. lia.
  - rewrite afters_codes. cbn [codes unw0 app]. clear. induction l as [|[c d] r IH]; [constructor|]. cbn [map concat]. apply Forall_app. split; [apply words_of_range|exact IH].
  - rewrite afters_codes. cbn [codes unw0 app]. rewrite <- (app_nil_r (rev _)), ops_all.
    + cbn [ops]. now rewrite app_nil_r.
    + rewrite Forall_forall in *. intros [x d] Hin. specialize (Hp _ Hin). specialize (Hb _ Hin). cbn in *. split; [lia|auto].
  - lia.
  - lia.
  - exact Hh.
Qed.

(** * Refused operands *)
Lemma swrap_mod8 v k : 0 <= k <= 32 -> swrap 32 v mod 2 ^ k = v mod 2 ^ k.
Proof.
  intros Hk. pose proof (swrap_mod 32 v ltac:(lia)) as H.
  assert (E : forall x, (x mod 2 ^ 32) mod 2 ^ k = x mod 2 ^ k).
  { intros x. symmetry. apply Znumtheory.Zmod_div_mod; [apply Z.pow_pos_nonneg; lia|apply Z.pow_pos_nonneg; lia|].
    exists (2 ^ (32 - k)). rewrite <- Z.pow_add_r by lia. f_equal. lia. }
  rewrite <- E, H. apply E.
Qed.
Theorem refused s cur d s' : 0 <= operand_value d < 2 ^ 32 -> ExcFrameDirective s cur d = Ok s' -> allowed_operand d.
Proof.
  unfold ExcFrameDirective. destruct (endprolog s); [discriminate|]. destruct d; cbn [operand_value allowed_operand]; auto; intros Hv H.
  - rewrite (wrap_small 32 v) in H by auto. destruct (negb _) in H; [discriminate|]. destruct (Z.eqb_spec v 0); [discriminate|].
    rewrite land7 in H. destruct (Z.eqb_spec (v mod 8) 0); [auto|discriminate].
  - unfold save in H. change (8 - 1) with 7 in H. rewrite land7 in H. pose proof (swrap_mod8 v 3 ltac:(lia)) as E. change (2 ^ 3) with 8 in E. rewrite E in H.
    destruct (Z.eqb_spec (v mod 8) 0); [auto|discriminate].
  - unfold save in H. change (16 - 1) with 15 in H. rewrite land15 in H. pose proof (swrap_mod8 v 4 ltac:(lia)) as E. change (2 ^ 4) with 16 in E. rewrite E in H.
    destruct (Z.eqb_spec (v mod 16) 0); [auto|discriminate].
  - rewrite land15 in H. pose proof (swrap_mod8 v 4 ltac:(lia)) as E. change (2 ^ 4) with 16 in E. rewrite E in H.
    destruct (Z.eqb_spec (v mod 16) 0); [|discriminate]. cbn [negb] in H. rewrite wrap_small, Z.gtb_ltb in H by auto.
    destruct (Z.ltb_spec 240 v); [discriminate|]. split; [lia|auto].
Qed.

(** * The tables *)
Lemma item_len s h pos : 0 <= pos -> (pos + zlen (xdata_item s h pos)) mod 4 = 0.
Proof.
  intros Hp. unfold xdata_item. cbv zeta. set (body := _ ++ concat _). rewrite !zlen_app.
  assert (E : zlen (repeat 0 (Z.to_nat ((- (pos + zlen body)) mod 4))) = (- (pos + zlen body)) mod 4) by (unfold zlen at 1; rewrite repeat_length; lia).
  rewrite E. destruct h; rewrite ?zlen_app; change (zlen (le_bytes 4 _)) with 4; change (zlen (@nil Z)) with 0; lia.
Qed.
Lemma read_entry_ok a b c : 0 <= a < 2 ^ 32 -> 0 <= b < 2 ^ 32 -> 0 <= c < 2 ^ 32 -> read_entry (le_bytes 4 a ++ le_bytes 4 b ++ le_bytes 4 c) = (a, b, c).
Proof.
  intros Ha Hb Hc. unfold read_entry, dword.
  assert (F : forall x r, firstn 4 (le_bytes 4 x ++ r) = le_bytes 4 x) by reflexivity.
  assert (S4 : forall x r, skipn 4 (le_bytes 4 x ++ r) = r) by reflexivity.
  assert (S8 : forall x y r, skipn 8 (le_bytes 4 x ++ le_bytes 4 y ++ r) = r) by reflexivity.
  rewrite F, S4, F, S8. rewrite <- (app_nil_r (le_bytes 4 c)), F. rewrite !le_val_le_bytes. change (2 ^ (8 * Z.of_nat 4)) with (2 ^ 32).
  rewrite !Z.mod_small by auto. reflexivity.
Qed.
Definition entry_ok (base : Z) (xd : list Z) (p : frame_proc) (e : list Z) : Prop :=
  endprolog (p_unw p) = true /\
  exists before behind, xd = before ++ xdata_item (p_unw p) (p_handler p) (zlen before) ++ behind /\ zlen before mod 4 = 0 /\
    e = le_bytes 4 (p_begin p) ++ le_bytes 4 (p_begin p + p_size p) ++ le_bytes 4 (base + zlen before).
Lemma write_procs_ok base l : forall xd label xd' t, (label = Some 0 \/ (label = None /\ xd = [])) -> zlen xd mod 4 = 0 ->
  write_procs base xd label l = Ok (xd', t) -> (exists more, xd' = xd ++ more) /\ Forall2 (entry_ok base xd') l t.
Proof.
  assert (Einj : forall a b : list Z * list (list Z), Ok a = Ok b -> a = b) by congruence.
  induction l as [|p l IH]; intros xd label xd' t Hl Hz H; cbn [write_procs] in H.
  - apply Einj in H. apply pair_equal_spec in H as [<- <-]. split; [exists []; now rewrite app_nil_r|constructor].
  - unfold WriteSEHData in H. destruct (endprolog (p_unw p)) eqn:Ee; [|discriminate]. cbn [negb bindr] in H.
    set (lab := match label with None => zlen xd | Some x => x end) in H.
    assert (Elab : lab = 0) by (unfold lab; destruct Hl as [->|[-> ->]]; reflexivity). rewrite Elab in H. clear lab Elab.
    set (item := xdata_item _ _ _) in H.
    destruct (write_procs base (xd ++ item) (Some 0) l) as [[xd2 t2]| |] eqn:E2; cbn [bindr] in H; try discriminate.
    apply Einj in H. apply pair_equal_spec in H as [<- <-].
    destruct (IH _ _ _ _ (or_introl eq_refl) ltac:(rewrite zlen_app; apply item_len; apply zlen_nonneg) E2) as [[more E] F].
    split; [exists (item ++ more); now rewrite E, app_assoc|].
    constructor; [|exact F]. split; [exact Ee|]. exists xd, more. split; [now rewrite E, <- app_assoc|]. split; [exact Hz|]. rewrite Z.add_0_r. reflexivity.
Qed.
