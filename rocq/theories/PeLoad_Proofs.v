(** The file, and what the loader makes of it. *)
From Coq Require Import ZArith List Bool Lia.
From Verif Require Import Base Pe_Model Pe_Spec PePlace_Proofs PeTable_Proofs PeAll_Proofs PeImage_Proofs PeWhole_Proofs.
Import ListNotations.
Open Scope Z_scope.

Local Arguments Z.pow : simpl never.
Local Arguments Z.div : simpl never.
Local Arguments Z.modulo : simpl never.

(** ** The file *)

Definition eff (s : seg) : bool := negb (bss s) && negb (p_size s =? 0).

Fixpoint ordered (z : Z) (l : list placed) : Prop :=
  match l with
  | [] => True
  | q :: r => if eff (q_s q) then z <= q_fo q /\ ordered (q_fo q + p_size (q_s q)) r else ordered z r
  end.

Lemma ordered_le : forall l z z', z <= z' -> ordered z' l -> ordered z l.
Proof.
  induction l as [|q l IH]; intros z z' L H; [exact Logic.I|]. cbn [ordered] in *. destruct (eff (q_s q)); [split; [lia|tauto]|eapply IH; eassumption].
Qed.

Definition okq (q : placed) : Prop := q_loc q = 0 /\ 0 <= p_size (q_s q) < 2 ^ 32 /\ filled (q_s q).

Lemma write_ok : forall l file, Forall okq l -> ordered (zlen file) l ->
  exists ext, write_segs l file = Ok (file ++ ext) /\
    forall q, In q l -> eff (q_s q) = true -> 0 <= q_fo q /\ q_fo q + p_size (q_s q) <= zlen (file ++ ext) /\
      forall j, 0 <= j < p_size (q_s q) -> nth_error (file ++ ext) (Z.to_nat (q_fo q + j)) = content (q_s q) j.
Proof.
  induction l as [|q l IH]; intros file F H.
  - exists []. cbn [write_segs]. rewrite app_nil_r. split; [reflexivity|]. intros q [].
  - inversion F as [|? ? [F1 [F2 F3]] F4]; subst. cbn [ordered] in H. cbn [write_segs]. rewrite F1, Z.sub_0_r, (wrap_small 32 (p_size (q_s q))) by exact F2.
    fold (bss (q_s q)).
    destruct (eff (q_s q)) eqn:E.
    + pose proof E as E0. unfold eff in E. apply andb_prop in E as [E1 E2]. apply negb_true_iff in E1, E2. apply Z.eqb_neq in E2.
      destruct F3 as [F3|[F3|(b & B1 & B2 & B3)]]; [lia|congruence|].
      rewrite E1. assert (W : (p_written (q_s q) =? 0) = false) by (apply Z.eqb_neq; exact B3). rewrite W. cbn [andb]. rewrite B1.
      assert (Z0 : (p_size (q_s q) =? 0) = false) by (apply Z.eqb_neq; exact E2). rewrite Z0.
      rewrite Z.gtb_ltb. assert (G : (zlen b <? p_size (q_s q)) = false) by (apply Z.ltb_ge; lia). rewrite G.
      destruct H as [H1 H2]. pose proof (zlen_nonneg file) as ZN.
      assert (NF : firstn (Z.to_nat (q_fo q)) file = file) by (apply firstn_all2; unfold zlen in *; lia).
      assert (NB : firstn (Z.to_nat (p_size (q_s q))) b = b) by (apply firstn_all2; unfold zlen in *; lia).
      assert (NS : skipn (Z.to_nat (q_fo q + p_size (q_s q))) file = []) by (apply skipn_all2; unfold zlen in *; lia).
      rewrite NF, NB, NS, app_nil_r.
      set (pad := repeat 0 (Z.to_nat (q_fo q - zlen file))).
      assert (ZP : zlen pad = q_fo q - zlen file) by (unfold pad, zlen at 1; rewrite repeat_length; lia).
      destruct (IH (file ++ pad ++ b)) as (ext & X1 & X2); [exact F4|rewrite !zlen_app, ZP, B2; replace (zlen file + (q_fo q - zlen file + p_size (q_s q))) with (q_fo q + p_size (q_s q)) by lia; exact H2|].
      exists (pad ++ b ++ ext). rewrite X1. split; [rewrite <- !app_assoc; reflexivity|].
      replace (file ++ pad ++ b ++ ext) with ((file ++ pad ++ b) ++ ext) by (rewrite <- !app_assoc; reflexivity).
      intros x [X|X] EX; [subst x|apply X2; assumption].
      split; [lia|]. split; [rewrite !zlen_app, ZP, B2; pose proof (zlen_nonneg ext); lia|].
      intros j J. unfold content. rewrite E1, B1.
      rewrite nth_error_app1 by (rewrite !app_length; unfold zlen in *; lia).
      rewrite nth_error_app2 by (unfold zlen in *; lia). rewrite nth_error_app2 by (unfold zlen in *; lia).
      f_equal. unfold zlen in *. lia.
    + assert (SK : forall T (x : list Z -> T) (y : T), match p_buf (q_s q) with
        | Some b => if (if (p_written (q_s q) =? 0) && negb (existsb (fun d => negb (p_written (q_s d) =? 0)) l) then 0 else if bss (q_s q) then 0 else p_size (q_s q)) =? 0 then y else x b
        | None => y end = y).
      { intros T x y. destruct (p_buf (q_s q)) as [b|]; [|reflexivity].
        unfold eff in E. destruct (bss (q_s q)); cbn [negb andb] in E.
        - destruct (_ && _); reflexivity.
        - apply negb_false_iff in E. apply Z.eqb_eq in E. rewrite E. destruct (_ && _); reflexivity. }
      match goal with |- exists ext, match p_buf _ with Some b => if ?c then ?y else @?x b | None => _ end = _ /\ _ => pose proof (SK _ x y) as SK' end.
      cbv beta in SK'. rewrite SK'.
      destruct (IH file F4 H) as (ext & X1 & X2). exists ext. split; [exact X1|].
      intros x [X|X] EX; [subst x; congruence|apply X2; assumption].
Qed.

(** ** The order of the segments in the file *)

Lemma lay_facts : forall r b f e q, In q (lay b f e r) -> q_loc q = 0 /\ (bss (q_s q) = false -> q_fo q - f = q_rva q - b).
Proof.
  induction r as [|s r IH]; intros b f e q X; [destruct X|]. cbn [lay] in X. destruct X as [X|X].
  - subst q. cbn [q_loc q_s q_fo q_rva]. split; [reflexivity|]. intro E. rewrite E. lia.
  - apply (IH _ _ _ _ X).
Qed.

Lemma lay_ordered : forall r b f e rest, Forall sound r -> Forall (fun s => bss s = false) r -> ordered (f + extent e r) rest -> ordered (f + e) (lay b f e r ++ rest).
Proof.
  induction r as [|s r IH]; intros b f e rest SO BS H; [exact H|]. inversion SO as [|? ? S1 S2]; inversion BS as [|? ? B1 B2]; subst.
  cbn [lay app extent] in *. cbn [ordered q_s q_fo]. rewrite B1. destruct S1 as [SA SS _ _ _].
  pose proof (up_bounds (2 ^ p_align s) e (pow_pos (p_align s) ltac:(lia))) as U.
  specialize (IH b f (up (2 ^ p_align s) e + p_size s) rest S2 B2 H).
  destruct (eff s).
  - split; [lia|]. rewrite <- Z.add_assoc. exact IH.
  - eapply ordered_le; [|exact IH]. lia.
Qed.

Lemma bss_ordered : forall r b f e z rest, Forall (fun s => bss s = true) r -> ordered z rest -> ordered z (lay b f e r ++ rest).
Proof.
  induction r as [|s r IH]; intros b f e z rest BS H; [exact H|]. inversion BS as [|? ? B1 B2]; subst.
  cbn [lay app ordered q_s]. unfold eff. rewrite B1. cbn [negb andb]. apply IH; assumption.
Qed.

Lemma run_kind : forall R i r, chain i R -> Forall (fun r => Forall sound r) R -> In r R -> Forall (fun s => bss s = is_bss r) r.
Proof.
  intros R i r CH SO IN. destruct (chain_same R i r CH IN) as (s & u & E & F). subst r. cbn [is_bss]. constructor; [reflexivity|].
  apply run_bss; [exact F|]. rewrite Forall_forall in SO. specialize (SO _ IN). apply so_idx. exact (Forall_inv SO).
Qed.

Lemma bases_ordered : forall k m R i b f, 0 <= k -> Forall (okrun k) R -> chain i R -> ordered f (flat_map alone (bases (2 ^ k) (2 ^ m) b f R)).
Proof.
  intros k m. induction R as [|r R IH]; intros i b f K OK CH; [exact Logic.I|]. inversion OK as [|? ? [O1 O2] O3]; subst.
  assert (SR : Forall (fun r => Forall sound r) (r :: R)) by (eapply Forall_impl; [|exact OK]; intros x X; exact (proj1 X)).
  pose proof (run_kind (r :: R) i r CH SR (or_introl eq_refl)) as RK.
  destruct r as [|s u]; [destruct CH|]. destruct CH as (C1 & C2 & C3).
  cbn [bases flat_map]. cbv zeta. cbn [alone].
  set (A := Z.max _ _). assert (AP : 0 < A) by (unfold A; pose proof (pow_pos k K); lia).
  pose proof (up_bounds A f AP) as U. eapply ordered_le; [exact (proj1 U)|].
  destruct (is_bss (s :: u)).
  - apply bss_ordered; [exact RK|]. apply (IH (idx s)); assumption.
  - replace (up A f) with (up A f + 0) at 1 by lia. apply lay_ordered; [assumption..|]. apply (IH (idx s)); assumption.
Qed.

(** ** The loader *)

Lemma loaded_section : forall k m file h R b0 f0 b f r a, 0 <= k -> 0 <= m -> Forall (okrun k) R ->
  In (b, f, r) (bases (2 ^ k) (2 ^ m) b0 f0 R) -> b <= a < b + extent 0 r ->
  loaded file h (map (section_of (2 ^ k)) (bases (2 ^ k) (2 ^ m) b0 f0 R)) a =
  let x := section_of (2 ^ k) (b, f, r) in
  if a - b <? t_raw x then nth_error file (Z.to_nat (t_ptr x + (a - b))) else Some 0.
Proof.
  intros k m file h. induction R as [|r0 R IH]; intros b0 f0 b f r a K M OK X A; [destruct X|]. inversion OK as [|? ? [O1 O2] O3]; subst.
  cbn [bases map] in *. cbv zeta in *. cbn [loaded].
  destruct X as [X|X].
  - inversion X; subst. change (t_va (section_of (2 ^ k) (?b, ?f, ?r))) with b. cbn [section_of t_va t_vsize].
    assert (C : ((up (2 ^ m) b0 <=? a) && (a <? up (2 ^ m) b0 + extent 0 r)) = true) by (apply andb_true_intro; split; [apply Z.leb_le|apply Z.ltb_lt]; lia).
    rewrite C. reflexivity.
  - destruct (bases_bounds k m R _ _ b f r K M O3 X) as [B1 _].
    cbn [section_of t_va t_vsize].
    assert (C : ((up (2 ^ m) b0 <=? a) && (a <? up (2 ^ m) b0 + extent 0 r0)) = false) by (apply andb_false_iff; right; apply Z.ltb_ge; lia).
    rewrite C. apply IH; assumption.
Qed.

Lemma loaded_header : forall k m file h R b0 f0 a, 0 <= k -> 0 <= m -> 0 <= a < b0 -> a < h -> Forall (okrun k) R ->
  loaded file h (map (section_of (2 ^ k)) (bases (2 ^ k) (2 ^ m) b0 f0 R)) a = nth_error file (Z.to_nat a).
Proof.
  intros k m file h. induction R as [|r0 R IH]; intros b0 f0 a K M A H OK.
  - cbn [bases map loaded]. assert (C : ((0 <=? a) && (a <? h)) = true) by (apply andb_true_intro; split; [apply Z.leb_le|apply Z.ltb_lt]; lia). rewrite C. reflexivity.
  - inversion OK as [|? ? [O1 O2] O3]; subst. cbn [bases map loaded]. cbv zeta. cbn [map loaded section_of t_va t_vsize].
    pose proof (up_bounds (2 ^ m) b0 (pow_pos m M)) as U. pose proof (extent_nonneg r0 O1).
    assert (C : ((up (2 ^ m) b0 <=? a) && (a <? up (2 ^ m) b0 + extent 0 r0)) = false) by (apply andb_false_iff; left; apply Z.leb_gt; lia).
    rewrite C. apply IH; try assumption. lia.
Qed.

Lemma bases_mult : forall k m R b0 f0 b f r, 0 <= k -> Forall (okrun k) R -> Forall (fun r => r <> []) R -> In (b, f, r) (bases (2 ^ k) (2 ^ m) b0 f0 R) -> (2 ^ m | b) /\ (2 ^ k | f) /\ f0 <= f.
Proof.
  intros k m. induction R as [|r0 R IH]; intros b0 f0 b f r K OK NE X; [destruct X|]. inversion OK as [|? ? [O1 O2] O3]; inversion NE as [|? ? N1 N2]; subst.
  destruct r0 as [|s u]; [congruence|]. pose proof (so_align s (Forall_inv O1)) as SA.
  cbn [bases] in X. cbv zeta in X. rewrite max_pow in X by lia.
  pose proof (up_bounds (2 ^ Z.max k (p_align s)) f0 (pow_pos (Z.max k (p_align s)) ltac:(lia))) as U. pose proof (extent_nonneg (s :: u) O1).
  destruct X as [X|X].
  - inversion X; subst. split; [apply up_divide|]. split; [eapply Z.divide_trans; [|apply up_divide]; apply pow_div; lia|lia].
  - destruct (IH _ _ _ _ _ K O3 N2 X) as (Q1 & Q2 & Q3). split; [exact Q1|]. split; [exact Q2|]. destruct (is_bss (s :: u)); lia.
Qed.

Lemma chain_nonempty : forall R i, chain i R -> Forall (fun r => r <> []) R.
Proof. induction R as [|r R IH]; intros i CH; [constructor|]. destruct r as [|s u]; [destruct CH|]. destruct CH as (_ & _ & C3). constructor; [discriminate|apply (IH _ C3)]. Qed.

Lemma pad_mult : forall k n, 0 <= k -> 0 <= n ->
  let rest := Z.land n (2 ^ k - 1) in (2 ^ k | n + (if rest =? 0 then 0 else 2 ^ k - rest)) /\ 0 <= rest < 2 ^ k.
Proof.
  intros k n K N. cbv zeta. replace (2 ^ k - 1) with (Z.ones k) by (rewrite Z.ones_equiv; lia). rewrite Z.land_ones by exact K.
  pose proof (pow_pos k K) as P. pose proof (Z.mod_pos_bound n (2 ^ k) P) as B. split; [|exact B].
  pose proof (Z.div_mod n (2 ^ k) ltac:(lia)) as D.
  destruct (n mod 2 ^ k =? 0) eqn:E.
  - apply Z.eqb_eq in E. exists (n / 2 ^ k). lia.
  - exists (n / 2 ^ k + 1). lia.
Qed.

Lemma loads : forall k m v l, regular k m l -> ascending (-1) l -> Forall filled l -> Forall (fun r => is_hdr r = true \/ roomy (2 ^ k) r) (runs l) ->
  v_segs v = positions (2 ^ k) (2 ^ m) l -> v_table v = table (2 ^ k) (2 ^ m) l -> v_headers v = headers (2 ^ k) (2 ^ m) l ->
  exists file, write_file (2 ^ k) v = Ok file /\ (2 ^ k | zlen file) /\
    (forall x, In x (v_table v) -> t_ptr x + t_raw x <= zlen file) /\
    forall q j, In q (v_segs v) -> 0 <= j < p_size (q_s q) ->
      loaded file (v_headers v) (v_table v) (q_rva q + j) = content (q_s q) j.
Proof.
  intros k m v l RG A FL RO VS VT VH.
  assert (KM : 0 <= k /\ 0 <= m) by (pose proof (re_k _ _ _ RG); lia). destruct KM as [K M].
  destruct (regular_split k m l RG A) as (h & R & RE & HN & HH & SH & OKH & CH & RN & TR & NH & EX & CC).
  assert (OKR : Forall (okrun k) R) by (eapply Forall_impl; [|exact TR]; intros a X; exact (proj1 X)).
  assert (SR : Forall (fun r => Forall sound r) R) by (eapply Forall_impl; [|exact OKR]; intros a X; exact (proj1 X)).
  assert (HB : is_hdr h = true /\ is_bss h = false /\ Forall (fun s => bss s = false) h).
  { split; [|split]; [destruct h; [congruence|]; cbn [is_hdr]; rewrite (Forall_inv HH); reflexivity|destruct h; [congruence|]; cbn [is_bss]; unfold bss; rewrite (Forall_inv HH); reflexivity|].
    eapply Forall_impl; [|exact HH]. intros s S0. unfold bss. rewrite S0. reflexivity. }
  destruct HB as (HB1 & HB2 & HB3).
  assert (AP : 0 < Z.max (2 ^ k) (match h with s :: _ => 2 ^ p_align s | [] => 1 end)) by (pose proof (pow_pos k K); lia).
  assert (BE : bases (2 ^ k) (2 ^ m) 0 0 (runs l) = (0, 0, h) :: bases (2 ^ k) (2 ^ m) (extent 0 h) (extent 0 h) R).
  { rewrite RE. cbn [bases]. cbv zeta. rewrite (up_zero (2 ^ m)) by (apply pow_pos; exact M). rewrite (up_zero _ AP), HB2, !Z.add_0_l. reflexivity. }
  set (X := bases (2 ^ k) (2 ^ m) (extent 0 h) (extent 0 h) R) in *.
  assert (TE : table (2 ^ k) (2 ^ m) l = map (section_of (2 ^ k)) X).
  { unfold table. rewrite BE. cbn [filter snd]. rewrite HB1. cbn [negb]. unfold X. rewrite filter_bases by exact NH. reflexivity. }
  assert (PE : positions (2 ^ k) (2 ^ m) l = lay 0 0 0 h ++ flat_map alone X) by (unfold positions; rewrite BE; reflexivity).
  assert (HE : extent 0 h <= headers (2 ^ k) (2 ^ m) l).
  { unfold headers. rewrite BE. cbn [filter snd]. rewrite HB1. cbn [negb]. unfold X. rewrite filter_bases by exact NH.
    pose proof (chain_nonempty R 0 CH) as CN.
    destruct (bases (2 ^ k) (2 ^ m) (extent 0 h) (extent 0 h) R) as [|[[b f] r] Y] eqn:Q.
    - exfalso. destruct R; [congruence|]. cbn [bases] in Q. discriminate.
    - apply (bases_mult k m R (extent 0 h) (extent 0 h) b f r K OKR CN). rewrite Q. left. reflexivity. }
  rewrite VS, VT, VH, TE, PE in *.
  assert (OQ : Forall okq (lay 0 0 0 h ++ flat_map alone X)).
  { apply Forall_forall. intros q Q. rewrite <- PE in Q. destruct (positions_bounds k m l q RG Q) as (B1 & B2 & B3).
    split; [|split].
    - unfold positions in Q. apply in_flat_map in Q as ([[b f] r] & _ & Q). apply (lay_facts r b f 0 q Q).
    - destruct B3. change (2 ^ 30) with 1073741824 in *. change (2 ^ 32) with 4294967296. lia.
    - rewrite Forall_forall in FL. apply FL. unfold positions in Q. apply in_flat_map in Q as ([[b f] r] & Q1 & Q2). rewrite <- CC, <- RE. apply in_concat. exists r. split; [eapply bases_in; exact Q1|eapply lay_in; exact Q2]. }
  assert (OO : ordered (zlen (@nil Z)) (lay 0 0 0 h ++ flat_map alone X)).
  { change (zlen (@nil Z)) with (0 + 0). apply lay_ordered; [assumption..|]. rewrite Z.add_0_l. unfold X. apply (bases_ordered k m R 0); assumption. }
  destruct (write_ok _ [] OQ OO) as (file & W1 & W2). cbn [app] in W1, W2.
  set (rest := Z.land (zlen file) (2 ^ k - 1)) in *.
  set (pad := if rest =? 0 then [] else repeat 0 (Z.to_nat (2 ^ k - rest))).
  exists (file ++ pad).
  destruct (pad_mult k (zlen file) K (zlen_nonneg file)) as [PM PR]. fold rest in PM, PR.
  assert (ZP : zlen pad = if rest =? 0 then 0 else 2 ^ k - rest).
  { unfold pad. destruct (rest =? 0); [reflexivity|]. unfold zlen. rewrite repeat_length. lia. }
  assert (DV : (2 ^ k | zlen (file ++ pad))) by (rewrite zlen_app, ZP; exact PM).
  assert (W3 : forall q, In q (lay 0 0 0 h ++ flat_map alone X) -> eff (q_s q) = true -> 0 <= q_fo q /\ q_fo q + p_size (q_s q) <= zlen file /\
      forall j, 0 <= j < p_size (q_s q) -> nth_error (file ++ pad) (Z.to_nat (q_fo q + j)) = content (q_s q) j).
  { intros q Q E. destruct (W2 q Q E) as (Y1 & Y2 & Y3). split; [exact Y1|]. split; [exact Y2|]. intros j J. rewrite nth_error_app1; [apply Y3; exact J|]. unfold zlen in *. lia. }
  split; [unfold write_file; rewrite VS, W1; cbn [bindr]; fold rest; reflexivity|].
  split; [exact DV|]. split.
  - intros x XI. apply in_map_iff in XI as ([[b f] r] & <- & XI).
    pose proof (bases_in _ _ _ _ _ _ _ _ XI) as RI.
    destruct (bases_mult k m R _ _ b f r K OKR (chain_nonempty R 0 CH) XI) as (_ & D2 & F0).
    pose proof (run_kind R 0 r CH SR RI) as RK.
    cbn [section_of t_ptr t_raw]. destruct (is_bss r); [pose proof (zlen_nonneg (file ++ pad)); lia|].
    rewrite Forall_forall in TR. destruct (TR r RI) as [[SOR _] LA].
    assert (LAST : exists q, In q (lay b f 0 r) /\ q_s q = last r (q_s q) /\ q_rva q + p_size (q_s q) = b + extent 0 r).
    { destruct r as [|s u]; [exfalso; pose proof (chain_nonempty R 0 CH) as CN; rewrite Forall_forall in CN; exact (CN [] RI eq_refl)|]. clear. revert s. generalize 0. induction u as [|y u IH]; intros e s.
      - cbn [lay extent]. eexists. split; [left; reflexivity|]. cbn [q_s q_rva last]. split; [reflexivity|lia].
      - destruct (IH (up (2 ^ p_align s) e + p_size s) y) as (q & Q1 & Q2 & Q3). exists q. split; [right; exact Q1|]. split; [exact Q2|exact Q3]. }
    destruct LAST as (q & Q1 & Q2 & Q3).
    assert (QI : In q (lay 0 0 0 h ++ flat_map alone X)) by (apply in_or_app; right; apply in_flat_map; exists (b, f, r); split; [exact XI|exact Q1]).
    destruct (lay_facts r b f 0 q Q1) as [_ LF]. pose proof (lay_in r b f 0 q Q1) as LI.
    assert (BQ : bss (q_s q) = false) by (rewrite Forall_forall in RK; apply RK; exact LI).
    specialize (LF BQ). specialize (LA (q_s q)). rewrite <- Q2 in LA.
    assert (EQ : eff (q_s q) = true) by (unfold eff; rewrite BQ; cbn [negb andb]; apply negb_true_iff; apply Z.eqb_neq; lia).
    destruct (W3 q QI EQ) as (_ & Y2 & _).
    pose proof (extent_ge r 0 (sized r SOR)) as EG. pose proof (pow_pos k K) as P.
    assert (UU : up (2 ^ k) (f + sizes r) <= zlen (file ++ pad)) by (apply up_least; [exact P|exact DV|rewrite zlen_app; pose proof (zlen_nonneg pad); lia]).
    rewrite up_shift in UU by assumption. exact UU.
  - intros q j Q J.
    apply in_app_or in Q as [Q|Q].
    + pose proof (lay_in h 0 0 0 q Q) as LI. destruct (lay_facts h 0 0 0 q Q) as [_ LF]. rewrite Forall_forall in HB3. pose proof (HB3 _ LI) as BQ. specialize (LF BQ).
      destruct (lay_bounds h 0 0 0 q SH Q) as [L1 L2].
      unfold X. rewrite loaded_header; try assumption; try lia.
      assert (EQ : eff (q_s q) = true) by (unfold eff; rewrite BQ; cbn [negb andb]; apply negb_true_iff; apply Z.eqb_neq; lia).
      destruct (W3 q (in_or_app _ _ _ (or_introl Q)) EQ) as (_ & _ & Y3). rewrite <- (Y3 j J). f_equal. f_equal. lia.
    + pose proof Q as Q0. apply in_flat_map in Q as ([[b f] r] & XI & Q1). cbn [alone] in Q1.
      pose proof (bases_in _ _ _ _ _ _ _ _ XI) as RI. pose proof (run_kind R 0 r CH SR RI) as RK.
      destruct (lay_facts r b f 0 q Q1) as [_ LF]. pose proof (lay_in r b f 0 q Q1) as LI.
      assert (SOR : Forall sound r) by (rewrite Forall_forall in SR; apply SR; exact RI).
      destruct (lay_bounds r b f 0 q SOR Q1) as [L1 L2].
      unfold X in XI |- *. rewrite (loaded_section k m (file ++ pad) _ R _ _ b f r (q_rva q + j)); try assumption; try lia.
      cbv zeta. cbn [section_of t_raw t_ptr].
      assert (BQ : bss (q_s q) = is_bss r) by (rewrite Forall_forall in RK; apply RK; exact LI).
      destruct (is_bss r) eqn:BR.
      * assert (C : (q_rva q + j - b <? 0) = false) by (apply Z.ltb_ge; lia). rewrite C. unfold content. rewrite BQ. reflexivity.
      * specialize (LF BQ).
        assert (RM : extent 0 r <= up (2 ^ k) (sizes r)).
        { rewrite Forall_forall in RO. rewrite RE in RO. destruct (RO r (or_intror RI)) as [H|[H|H]]; [|congruence|exact H].
          rewrite Forall_forall in NH. rewrite (NH r RI) in H. discriminate. }
        assert (C : (q_rva q + j - b <? up (2 ^ k) (sizes r)) = true) by (apply Z.ltb_lt; lia). rewrite C.
        assert (EQ : eff (q_s q) = true) by (unfold eff; rewrite BQ; cbn [negb andb]; apply negb_true_iff; apply Z.eqb_neq; lia).
        destruct (W3 q (in_or_app _ _ _ (or_intror Q0)) EQ) as (_ & _ & Y3). rewrite <- (Y3 j J). f_equal. f_equal. lia.
Qed.
