From Verif Require Import Base Alloc_Model Alloc_Spec.

(** A run: each step is a request with the operating system's answer.
    [os] are the ranges obtained from the operating system so far,
    [got] the (start, requested end) ranges handed out. *)
Inductive run : list (Z * option Z) -> heap -> list range -> list range -> Prop :=
| run_init : run [] MemInit [] []
| run_step ops h os got req sys h' p os' :
    run ops h os got ->
    LclAlloc h req sys = Ok (h', p) ->
    os' = match block_request h req, sys with
          | Some n, Some a => (a, a + n) :: os
          | _, _ => os
          end ->
    run (ops ++ [(req, sys)]) h' os' ((p, p + req) :: got).

(** the operating system's contract: fresh, aligned, non-null *)
Definition os_ok (os : list range) : Prop :=
  pairwise disjoint os /\ Forall (fun r => fst r mod 8 = 0 /\ 0 < fst r) os.

Lemma round_size_spec req : 0 <= req < 2 ^ 64 - 7 ->
  round_size req = 8 * ((req + 7) / 8).
Proof.
  intros H. unfold round_size.
  change (wrap 64 (Z.lnot (8 - 1))) with (Z.lxor (Z.ones 64) 7).
  unfold wrap. rewrite Z.mod_small by lia. change (8 - 1) with 7.
  apply Z.bits_inj'. intros n N. rewrite Z.land_spec, Z.lxor_spec.
  change 7 with (Z.ones 3) at 2. rewrite Z.testbit_ones by lia.
  rewrite Z.testbit_ones by lia.
  rewrite (Z.mul_comm 8). change 8 with (2 ^ 3).
  destruct (Z.lt_ge_cases n 3).
  - rewrite Z.mul_pow2_bits_low by lia.
    replace (0 <=? n) with true by lia. replace (n <? 64) with true by lia. replace (n <? 3) with true by lia.
    cbn. apply andb_false_r.
  - rewrite Z.mul_pow2_bits, Z.div_pow2_bits by lia. replace (n - 3 + 3) with n by lia.
    replace (0 <=? n) with true by lia. replace (n <? 3) with false by lia.
    cbn [andb]. rewrite xorb_false_r.
    destruct (n <? 64) eqn:E; [apply andb_true_r|].
    rewrite andb_false_r. symmetry.
    rewrite <- (Z.mod_small (req + 7) (2 ^ 64)) by lia. apply Z.mod_pow2_bits_high. lia.
Qed.

Lemma pairwise_tail {A} (R : A -> A -> Prop) a l : pairwise R (a :: l) -> pairwise R l.
Proof. intros [_ H]; exact H. Qed.

(** invariant: everything handed out lies in the body of an OS block; the
    free part of the current block is behind everything handed out there *)
Record inv (h : heap) (os got : list range) : Prop := {
  iv_free : 0 <= currfree h < 2 ^ 32;
  iv_al : pCurr h mod 8 = 0;
  iv_base : map fst os = pBase h;
  iv_cur : currfree h = 0 \/
           exists b, In b os /\ fst b + HDR <= pCurr h /\ pCurr h + currfree h <= snd b;
  iv_got : Forall (fun r => fst r <= snd r /\ fst r mod 8 = 0 /\
                    (fst r = snd r \/ exists b, In b os /\ inside r (fst b + HDR, snd b))) got;
  iv_dis : pairwise disjoint got;
  iv_ahead : Forall (fun r => disjoint r (pCurr h, pCurr h + currfree h)) got }.

Lemma run_os_tail ops h os got req sys h' p os' :
  run ops h os got -> LclAlloc h req sys = Ok (h', p) ->
  os' = match block_request h req, sys with Some n, Some a => (a, a + n) :: os | _, _ => os end ->
  os_ok os' -> os_ok os.
Proof.
  intros _ _ -> [P F]. destruct (block_request h req); [|split; assumption].
  destruct sys; [|split; assumption]. split; [eapply pairwise_tail; eassumption|].
  apply Forall_cons_iff in F as [_ F]. exact F.
Qed.

Lemma run_inv ops h os got : run ops h os got -> os_ok os ->
  Forall (fun o => 0 <= fst o <= 2 ^ 32 - 8) ops -> inv h os got.
Proof.
  intros R; induction R as [|ops h os got req sys h' p os' R IH L E]; intros OK SZ.
  - constructor; cbn; auto; try (split; [lia|reflexivity]).
  - pose proof (run_os_tail _ _ _ _ _ _ _ _ _ R L E OK) as OK0.
    apply Forall_app in SZ as [SZ0 SZ1]. apply Forall_cons_iff in SZ1 as [SZ1 _]. cbn [fst] in SZ1.
    specialize (IH OK0 SZ0). destruct IH as [F1 A1 B1 C1 G1 D1 H1].
    unfold LclAlloc in L. unfold block_request in E. rewrite round_size_spec in L, E by lia.
    assert (RS : req <= 8 * ((req + 7) / 8) < req + 8 /\ (8 * ((req + 7) / 8)) mod 8 = 0 /\ 8 * ((req + 7) / 8) < 2 ^ 32) by lia.
    set (n := 8 * ((req + 7) / 8)) in *. clearbody n. destruct RS as (N1 & N2 & N3).
    destruct (currfree h <? n) eqn:Q.
    + destruct sys as [a|]; cbn [bindr] in L; [|discriminate]. injection L as <- <-.
      subst os'. destruct OK as [P F]. destruct P as [P0 P]. apply Forall_cons_iff in F as [[F0 F0'] F]. cbn [fst] in F0, F0'.
      assert (BR : block_room n = Z.max n (BLKSIZE - HDR)).
      { unfold block_room. change (BLKSIZE - HDR) with 524280. unfold wrap.
        destruct (n <=? 524280) eqn:Q2; rewrite Z.mod_small; lia. }
      rewrite BR in *. change (BLKSIZE - HDR) with 524280 in *. unfold HDR in *.
      constructor; cbn [pBase pCurr currfree map fst].
      * unfold wrap. rewrite Z.mod_small; lia.
      * lia.
      * f_equal. exact B1.
      * right. exists (a, a + (Z.max n 524280 + 8)). cbn [fst snd].
        split; [left; reflexivity|]. unfold wrap, HDR. rewrite Z.mod_small; lia.
      * constructor.
        -- cbn [fst snd]. split; [lia|]. split; [lia|]. right.
           eexists. split; [left; reflexivity|]. unfold inside. cbn [fst snd]. unfold HDR. lia.
        -- eapply Forall_impl; [|exact G1]. intros r (X & Y & [Z0|(b & Z1 & Z2)]); (split; [exact X|split; [exact Y|]]); [left; exact Z0|right].
           exists b. split; [right; exact Z1|exact Z2].
      * cbn [pairwise]. split; [|exact D1].
        clear - G1 P0 N1. rewrite Forall_forall in *. intros r I. destruct (G1 r I) as (X & Y & [Z0|(b & Z1 & Z2)]).
        -- unfold disjoint. intros x. lia.
        -- specialize (P0 b Z1). unfold disjoint, inside in *. cbn [fst snd] in *. intros x. specialize (P0 x). unfold HDR in Z2. lia.
      * constructor.
        -- unfold disjoint. cbn [fst snd]. intros x. lia.
        -- clear - G1 P0 N1 N3 SZ1. rewrite Forall_forall in *. intros r I. destruct (G1 r I) as (X & Y & [Z0|(b & Z1 & Z2)]).
           ++ unfold disjoint. intros x. lia.
           ++ specialize (P0 b Z1). unfold disjoint, inside in *. cbn [fst snd] in *. intros x. specialize (P0 x).
              unfold wrap. rewrite Z.mod_small by lia. unfold HDR in Z2. lia.
    + cbn [bindr] in L. injection L as <- <-. subst os'.
      assert (W : wrap 32 (currfree h - n) = currfree h - n) by (unfold wrap; apply Z.mod_small; lia).
      constructor; cbn [pBase pCurr currfree]; rewrite ?W.
      * lia.
      * lia.
      * exact B1.
      * destruct C1 as [C1|(b & I & X)]; [left; lia|right; exists b; split; [exact I|lia]].
      * constructor; [|exact G1]. cbn [fst snd]. split; [lia|]. split; [exact A1|].
        destruct C1 as [C1|(b & I & X)]; [left; lia|right].
        exists b. split; [exact I|]. unfold inside. cbn [fst snd]. lia.
      * cbn [pairwise]. split; [|exact D1]. eapply Forall_impl; [|exact H1].
        intros r. unfold disjoint. cbn [fst snd]. intros X x. specialize (X x). lia.
      * constructor.
        -- unfold disjoint. cbn [fst snd]. intros x. lia.
        -- eapply Forall_impl; [|exact H1].
           intros r. unfold disjoint. cbn [fst snd]. intros X x. specialize (X x). lia.
Qed.

Theorem alloc_safe ops h os got : run ops h os got -> os_ok os ->
  Forall (fun o => 0 <= fst o <= 2 ^ 32 - 8) ops ->
  map (fun r => snd r - fst r) (rev got) = map fst ops /\
  pairwise disjoint got /\
  Forall (fun r => fst r mod 8 = 0) got /\
  Forall (fun r => fst r = snd r \/ exists b, In b os /\ inside r (fst b + 8, snd b)) got /\
  MemFini h = map fst os.
Proof.
  intros R OK SZ. pose proof (run_inv _ _ _ _ R OK SZ) as [F1 A1 B1 C1 G1 D1 H1].
  split; [|split; [exact D1|split; [|split]]].
  - clear - R. induction R; [reflexivity|]. cbn [rev]. rewrite !map_app. cbn [map fst snd].
    f_equal; [exact IHR|]. f_equal. lia.
  - eapply Forall_impl; [|exact G1]. intros r (_ & X & _). exact X.
  - eapply Forall_impl; [|exact G1]. intros r (_ & _ & X). exact X.
  - symmetry. exact B1.
Qed.

(** the allocator fails only when the operating system does *)
Theorem alloc_total ops h os got req a : run ops h os got ->
  exists h' p, LclAlloc h req (Some a) = Ok (h', p).
Proof.
  intros _. unfold LclAlloc. destruct (currfree h <? round_size req); cbn [bindr]; eauto.
Qed.

(** blocks are shared: a new block is requested only if the rest of the
    current one is too small for the request *)
Theorem alloc_block_only_if_needed ops h os got req n : run ops h os got -> os_ok os ->
  Forall (fun o => 0 <= fst o <= 2 ^ 32 - 8) ops -> 0 <= req <= 2 ^ 32 - 8 ->
  block_request h req = Some n -> currfree h < req + 7 /\ req + 8 <= n /\ 0x80000 <= n.
Proof.
  intros R OK SZ Q. pose proof (run_inv _ _ _ _ R OK SZ) as [F1 _ _ _ _ _ _].
  unfold block_request. rewrite round_size_spec by lia.
  destruct (currfree h <? 8 * ((req + 7) / 8)) eqn:E; [|discriminate]. intros H. injection H as <-.
  unfold block_room, BLKSIZE, HDR, wrap.
  destruct (8 * ((req + 7) / 8) <=? 0x80000 - 8) eqn:E2; rewrite Z.mod_small; lia.
Qed.
