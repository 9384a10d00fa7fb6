From Verif Require Import Base ResWords_Model ResWords_Spec ResWordsRun_Spec ResWords_Proofs ResWordsOps_Proofs.

Section C.
Variable c : cfg.
Notation X := (lex c).
Notation sysk := (T_SYSCALL c).
Definition off0 (k : Z) : Z := zlen (concat (map fst (firstn (Z.to_nat (k - 1)) (words c)))).

Lemma concat_skip (l : list (list Z)) : forall j, skipn (length (concat (firstn j l))) (concat l) = concat (skipn j l).
Proof.
  induction l as [|x l IH]; intros [|j]; cbn [firstn skipn concat app length]; try reflexivity.
  rewrite app_length. rewrite skipn_app. rewrite skipn_all2 by lia. cbn [app].
  replace (length x + length (concat (firstn j l)) - length x)%nat with (length (concat (firstn j l))) by lia. apply IH.
Qed.
Lemma skip_prefix {A} (a b : list A) n : (n <= length a)%nat -> skipn n (a ++ b) = skipn n a ++ b.
Proof. intros H. rewrite skipn_app. replace (n - length a)%nat with 0%nat by lia. reflexivity. Qed.
Lemma concat_firstn_len (l : list (list Z)) : forall j, (length (concat (firstn j l)) <= length (concat l))%nat.
Proof. induction l as [|x l IH]; intros [|j]; cbn [firstn concat length]; try lia. rewrite !app_length. specialize (IH j). lia. Qed.
Lemma mem_orig k : tok_ok c k -> firstn (Z.to_nat (zlen (orig X k))) (mem c (Str (off0 k))) = orig X k.
Proof.
  intros K. unfold tok_ok, ntok in K. cbn [mem]. unfold resw_strings, off0, zlen. rewrite !Nat2Z.id.
  set (j := Z.to_nat (k - 1)). assert (J : (j < length (words c))%nat) by (unfold j; lia).
  rewrite <- firstn_map. rewrite skip_prefix by apply concat_firstn_len. rewrite concat_skip.
  cbn [orig lex]. fold j.
  assert (E : skipn j (map fst (words c)) = fst (nth j (words c) ([], (false, false))) :: skipn (S j) (map fst (words c))).
  { clearbody j. clear -J. revert j J. induction (words c) as [|w l IH]; intros j J; [cbn [length] in J; lia|]. destruct j as [|j]; [reflexivity|].
    cbn [map skipn nth]. cbn [length] in J. apply IH. lia. }
  rewrite E. cbn [concat]. rewrite <- app_assoc. rewrite firstn_app, firstn_all, Nat.sub_diag. cbn [firstn]. apply app_nil_r.
Qed.
Lemma mem_sys : firstn 8 (mem c (Str (strSyscall_ c))) = syscall_.
Proof.
  cbn [mem]. unfold strSyscall_, resw_strings. rewrite app_assoc. rewrite !zlen_app.
  change (zlen syscall_) with 8. change (zlen [0]) with 1.
  replace (Z.to_nat (zlen (concat (map fst (words c))) + 8 + 1 - 9)) with (length (concat (map fst (words c)))) by (unfold zlen; lia).
  rewrite <- app_assoc. rewrite skipn_app, skipn_all, Nat.sub_diag. reflexivity.
Qed.

Record rep (s : rw) (t : state) : Prop := {
  r_links : links c s (Head s) (act t) (dis t) (nms t);
  r_tail : dis t <> [] -> Tail s = last (dis t) 0;
  r_disb : forall k, disabled s k = inb k (dis t);
  r_mode : b64bit s = mode t;
  r_ren : renamed s = map (fun k => (k, Str (off0 k), zlen (orig X k))) (ren t);
  r_ndr : NoDup (ren t); r_rent : forall k, In k (ren t) -> tok_ok c k /\ k <> sysk;
  r_heap : forall k, In k (ren t) -> w_name s k = Heap (nms t k);
  r_orig : forall k, tok_ok c k -> k <> sysk -> ~ In k (ren t) -> w_name s k = Str (off0 k) /\ nms t k = orig X k;
  r_sys : w_name s sysk = Str (if mode t then strSyscall_ c else off0 sysk);
  r_sysnm : nms t sysk = if mode t then syscall_ else orig X sysk;
  r_sysn : mode t = true -> syscallname s = Str (off0 sysk);
  r_sysd : ~ In sysk (dis t);
  r_64 : mode t = false -> forall k, In k (tokens64 c) -> ~ In k (act t);
  r_32 : mode t = true -> forall k, In k (tokens32 c) -> ~ In k (act t) }.

Hypothesis OKC : cfg_ok c.
Lemma words_bytes k : Forall is_byte (orig X k).
Proof.
  destruct OKC as (B & _). cbn [orig lex]. destruct (nth_in_or_default (Z.to_nat (k - 1)) (words c) ([], (false, false))) as [I|E].
  - rewrite Forall_forall in B. apply (B _ I).
  - rewrite E. constructor.
Qed.
Lemma sys_ok : tok_ok c sysk.
Proof. destruct OKC as (_ & _ & _ & _ & S1 & _). unfold tok_ok, ntok. unfold zlen in S1. exact S1. Qed.
Lemma range_in f : forall n k x, In x (flag_range n f k) -> k <= x /\ f x = true.
Proof.
  induction n as [|n IH]; intros k x I; cbn [flag_range] in I; [destruct I|]. destruct (f k) eqn:F; [|destruct I].
  destruct I as [<-|I]; [split; [lia|exact F]|]. destruct (IH _ _ I). split; [lia|assumption].
Qed.
Lemma flag_range_ok (g : list Z * (bool * bool) -> bool) k : g ([], (false, false)) = false ->
  1 <= k -> g (nth (Z.to_nat (k - 1)) (words c) ([], (false, false))) = true -> tok_ok c k.
Proof.
  intros G K F. unfold tok_ok, ntok. split; [lia|]. destruct (Z_le_gt_dec k (Z.of_nat (length (words c)))) as [|N]; [assumption|].
  rewrite nth_overflow in F by lia. congruence.
Qed.
Lemma tok64 k : In k (tokens64 c) -> tok_ok c k /\ flag_x64 c k = true.
Proof.
  intros I. apply in_flat_map in I as (b & B & I). apply range_in in I as [L F]. split; [|exact F].
  destruct OKC as (_ & _ & P & _). rewrite Forall_forall in P. specialize (P b B).
  apply (flag_range_ok (fun w => fst (snd w))); [reflexivity|lia|exact F].
Qed.
Lemma tok32 k : In k (tokens32 c) -> tok_ok c k.
Proof.
  intros I. apply in_flat_map in I as (b & B & I). apply range_in in I as [L F].
  destruct OKC as (_ & _ & _ & P & _). rewrite Forall_forall in P. specialize (P b B).
  apply (flag_range_ok (fun w => snd (snd w))); [reflexivity|lia|exact F].
Qed.
Lemma nd64 : NoDup (tokens64 c).
Proof. destruct OKC as (_ & N & _). revert N. generalize (tokens32 c). induction (tokens64 c) as [|x l IH]; intros r N; [constructor|].
  cbn [app] in N. apply NoDup_cons_iff in N as [A B]. constructor; [intros I; apply A, in_or_app; auto|apply (IH _ B)]. Qed.
Lemma nd32 : NoDup (tokens32 c).
Proof. destruct OKC as (_ & N & _). induction (tokens64 c) as [|x l IH]; [exact N|]. cbn [app] in N. apply NoDup_cons_iff in N as [_ N]. apply IH. exact N. Qed.
Lemma dj6432 k : In k (tokens64 c) -> In k (tokens32 c) -> False.
Proof. destruct OKC as (_ & N & _). intros I J. induction (tokens64 c) as [|x l IH]; [destruct I|]. cbn [app] in N. apply NoDup_cons_iff in N as [A B].
  destruct I as [->|I]; [apply A, in_or_app; auto|apply IH; assumption]. Qed.
Lemma sys_nin : ~ In sysk (tokens64 c) /\ ~ In sysk (tokens32 c).
Proof. destruct OKC as (_ & _ & _ & _ & _ & N & _). split; intros I; apply N, in_or_app; auto. Qed.

Lemma links_same s s' h a d nm : links c s h a d nm -> w_name s' = w_name s -> w_len s' = w_len s -> w_next s' = w_next s -> table s' = table s -> links c s' h a d nm.
Proof.
  intros L A B C D. destruct L. split; try assumption.
  - intros k K. unfold name_of. rewrite A, B. apply l_nm. exact K.
  - intros i. rewrite B, C, D. apply l_chain.
  - rewrite C. exact l_rem.
Qed.
Lemma links_ext s h a d nm nm' : links c s h a d nm -> (forall k, tok_ok c k -> nm' k = nm k) -> links c s h a d nm'.
Proof.
  intros L E. split; try apply L.
  - intros k K. rewrite E by exact K. apply (l_nm _ _ _ _ _ _ L k K).
  - intros i. destruct (l_chain _ _ _ _ _ _ L i) as (ch & LZ & OK). exists ch. split; [exact LZ|].
    assert (B : bucket nm' i a = bucket nm i a).
    { apply filter_ext_in. intros x I. rewrite E; [reflexivity|]. apply (l_act _ _ _ _ _ _ L x I). }
    rewrite B. exact OK.
Qed.

Lemma updn_same f k n : updn f k n k = n.
Proof. unfold updn. rewrite Z.eqb_refl. reflexivity. Qed.
Lemma updn_other f k n x : x <> k -> updn f k n x = f x.
Proof. intros H. unfold updn. replace (x =? k) with false by lia. reflexivity. Qed.
Lemma off_in l a x : In x (off l a) <-> In x a /\ ~ In x l.
Proof. unfold off. rewrite filter_In. rewrite Bool.negb_true_iff, inb_false. reflexivity. Qed.

(** ** the operations *)
Lemma sim_rename s t k n : rep s t -> In k (act t) -> k <> sysk -> good_name n -> (In k (ren t) -> hd_error (ren t) = Some k) ->
  exists s', RenameKeyword c s k n = Ok s' /\ rep s' (fst (step X (Rename k n) t)).
Proof.
  intros R IA NS [NB NL] HD. unfold RenameKeyword. cbv zeta. pose proof (r_links _ _ R) as L.
  destruct (l_act _ _ _ _ _ _ L k IA) as [K ND]. destruct (l_nm _ _ _ _ _ _ L k K) as (N1 & N2 & N3).
  rewrite N1, N2, len_same. cbn [step]. destruct (same_name n (nms t k)) eqn:SN; cbn [fst]; [eauto|].
  destruct (remove_links c s _ _ _ _ k L K) as (s1 & E1 & L1 & F1). rewrite E1. cbn [bindr].
  rewrite (d_name _ _ F1), (d_ren _ _ F1).
  assert (NW : ~ In k (without k (act t))) by (intros I; apply without_in in I; tauto).
  (* common end: name set, keyword added again *)
  assert (FIN : forall s2 p l rn rs, links c s2 (Head s) (without k (act t)) (dis t) (nms t) -> w_name s2 = w_name s -> w_len s2 = w_len s -> disabled s2 = disabled s ->
     Head s2 = Head s -> Tail s2 = Tail s -> b64bit s2 = b64bit s -> syscallname s2 = syscallname s -> renamed s2 = rs ->
     firstn (Z.to_nat l) (mem c p) = n -> l = zlen n ->
     rs = map (fun k => (k, Str (off0 k), zlen (orig X k))) rn -> NoDup rn ->
     (forall x, x <> k -> In x rn <-> In x (ren t)) -> (In k rn -> p = Heap n) -> (~ In k rn -> p = Str (off0 k) /\ n = orig X k) ->
     exists s', AddResWord c (set_name s2 k p l) k = Ok s' /\
       rep s' {| act := without k (act t) ++ [k]; nms := updn (nms t) k n; dis := dis t; ren := rn; mode := mode t |}).
  { intros s2 p l rn rs L2 W1 W2 W3 W4 W5 W6 W7 W8 M LE RM RN RX RH RO.
    pose proof (name_links c s2 _ _ _ _ k p l n L2 NW M LE NB) as L3.
    destruct (add_links c _ _ _ _ _ k L3 K NW ND) as (s4 & E4 & L4 & F4). exists s4. split; [exact E4|].
    split; cbn [act nms dis ren mode].
    - rewrite (d_head _ _ F4). cbn [set_name Head]. rewrite W4. exact L4.
    - rewrite (d_tail _ _ F4). cbn [set_name Tail]. rewrite W5. apply (r_tail _ _ R).
    - intros x. rewrite (d_dis _ _ F4). cbn [set_name disabled]. rewrite W3. apply (r_disb _ _ R).
    - rewrite (d_mode _ _ F4). cbn [set_name b64bit]. rewrite W6. apply (r_mode _ _ R).
    - rewrite (d_ren _ _ F4). cbn [set_name renamed]. rewrite W8. exact RM.
    - exact RN.
    - intros x I. destruct (Z.eq_dec x k) as [->|NE]; [split; assumption|]. apply (r_rent _ _ R). apply RX; assumption.
    - intros x I. rewrite (d_name _ _ F4). cbn [set_name w_name]. destruct (Z.eq_dec x k) as [->|NE].
      + rewrite upd_same, updn_same. apply RH. exact I.
      + rewrite upd_other, updn_other, W1 by exact NE. apply (r_heap _ _ R). apply RX; assumption.
    - intros x TX SX I. rewrite (d_name _ _ F4). cbn [set_name w_name]. destruct (Z.eq_dec x k) as [->|NE].
      + rewrite upd_same, updn_same. apply RO. exact I.
      + rewrite upd_other, updn_other, W1 by exact NE. apply (r_orig _ _ R); try assumption. intros J. apply I. apply RX; assumption.
    - rewrite (d_name _ _ F4). cbn [set_name w_name]. rewrite upd_other by congruence. rewrite W1. apply (r_sys _ _ R).
    - rewrite updn_other by congruence. apply (r_sysnm _ _ R).
    - intros M1. rewrite (d_sys _ _ F4). cbn [set_name syscallname]. rewrite W7. apply (r_sysn _ _ R M1).
    - apply (r_sysd _ _ R).
    - intros M1 x I J. apply in_app_or in J as [J|[<-|[]]].
      + apply without_in in J as [J _]. apply (r_64 _ _ R M1 x I J).
      + apply (r_64 _ _ R M1 k I IA).
    - intros M1 x I J. apply in_app_or in J as [J|[<-|[]]].
      + apply without_in in J as [J _]. apply (r_32 _ _ R M1 x I J).
      + apply (r_32 _ _ R M1 k I IA). }
  assert (ZN : firstn (Z.to_nat (zlen n)) (mem c (Heap n)) = n).
  { cbn [mem]. unfold zlen. rewrite Nat2Z.id. apply firstn_all. }
  destruct (inb k (ren t)) eqn:IR.
  - apply inb_ok in IR. rewrite (r_heap _ _ R k IR). specialize (HD IR). rewrite (r_ren _ _ R).
    destruct (ren t) as [|k' rest] eqn:RE; [discriminate|]. cbn [hd_error] in HD. inversion HD as [HD']. subst k'. cbn [map]. rewrite Z.eqb_refl.
    rewrite (mem_orig k K). pose proof (r_ndr _ _ R) as NDR. rewrite RE in NDR.
    apply NoDup_cons_iff in NDR as [NR1 NR2].
    assert (WR : without k (k :: rest) = rest) by (apply (without_mid k [] rest); exact NR1).
    unfold memcmp_eq. destruct (list_eq_dec Z.eq_dec n (orig X k)) as [EQ|NEQ].
    + rewrite EQ, Z.eqb_refl. cbn [andb]. rewrite <- EQ. rewrite WR.
      apply (FIN (set_renamed s1 (map (fun k => (k, Str (off0 k), zlen (orig X k))) rest)) (Str (off0 k)) (zlen n) rest (map (fun k => (k, Str (off0 k), zlen (orig X k))) rest)).
      * apply (links_same s1); [exact L1|reflexivity..].
      * apply (d_name _ _ F1).
      * apply (d_len _ _ F1).
      * apply (d_dis _ _ F1).
      * apply (d_head _ _ F1).
      * apply (d_tail _ _ F1).
      * apply (d_mode _ _ F1).
      * apply (d_sys _ _ F1).
      * reflexivity.
      * rewrite EQ. apply mem_orig. exact K.
      * reflexivity.
      * reflexivity.
      * exact NR2.
      * intros x NE. cbn [In]. split; [auto|]. intros [->|I]; [congruence|exact I].
      * intros I. contradiction.
      * auto.
    + rewrite Bool.andb_false_r. apply (FIN s1 (Heap n) (zlen n) (k :: rest) (renamed s)).
      * exact L1.
      * apply (d_name _ _ F1).
      * apply (d_len _ _ F1).
      * apply (d_dis _ _ F1).
      * apply (d_head _ _ F1).
      * apply (d_tail _ _ F1).
      * apply (d_mode _ _ F1).
      * apply (d_sys _ _ F1).
      * apply (d_ren _ _ F1).
      * exact ZN.
      * reflexivity.
      * rewrite (r_ren _ _ R), RE. reflexivity.
      * constructor; assumption.
      * intros x NE. reflexivity.
      * auto.
      * intros J. exfalso. apply J. left. reflexivity.
  - apply inb_false in IR. destruct (r_orig _ _ R k K NS IR) as [P1 P2]. rewrite P1. rewrite (d_len _ _ F1), N2, P2.
    apply (FIN (set_renamed s1 (renamed s ++ [(k, Str (off0 k), zlen (orig X k))])) (Heap n) (zlen n) (ren t ++ [k]) (renamed s ++ [(k, Str (off0 k), zlen (orig X k))])).
    + apply (links_same s1); [exact L1|reflexivity..].
    + apply (d_name _ _ F1).
    + apply (d_len _ _ F1).
    + apply (d_dis _ _ F1).
    + apply (d_head _ _ F1).
    + apply (d_tail _ _ F1).
    + apply (d_mode _ _ F1).
    + apply (d_sys _ _ F1).
    + reflexivity.
    + exact ZN.
    + reflexivity.
    + rewrite (r_ren _ _ R), map_app. reflexivity.
    + apply NoDup_snoc; [apply (r_ndr _ _ R)|exact IR].
    + intros x NE. rewrite in_app_iff. cbn [In]. split; [intros [I|[I|[]]]; [exact I|congruence]|auto].
    + auto.
    + intros J. exfalso. apply J. apply in_or_app. right. left. reflexivity.
Qed.

Lemma sim_disable s t k : rep s t -> In k (act t) -> k <> sysk ->
  exists s', DisableKeyword c s k = Ok s' /\ rep s' (fst (step X (Disable k) t)).
Proof.
  intros R IA NS. unfold DisableKeyword. pose proof (r_links _ _ R) as L.
  destruct (l_act _ _ _ _ _ _ L k IA) as [K ND]. rewrite (r_disb _ _ R). cbn [step].
  destruct (inb k (dis t)) eqn:ID; [apply inb_ok in ID; contradiction|]. cbn [fst].
  destruct (remove_links c s _ _ _ _ k L K) as (s1 & E1 & L1 & F1). rewrite E1. cbn [bindr]. cbv zeta.
  set (s2 := set_disabled (set_next s1 (upd (w_next s1) k 0)) k true).
  assert (H2 : Head s2 = Head s) by (apply (d_head _ _ F1)). assert (T2 : Tail s2 = Tail s) by (apply (d_tail _ _ F1)).
  assert (NW : ~ In k (without k (act t))) by (intros I; apply without_in in I; tauto).
  assert (KZ : k <> 0) by (unfold tok_ok in K; lia).
  assert (CHN : forall nx, (forall x, In x (without k (act t)) -> nx x = w_next s1 x) -> forall i, exists ch, lz nx (table s1 i) ch /\ okchain (w_len s1) (bucket (nms t) i (without k (act t))) ch).
  { intros nx HN i. destruct (l_chain _ _ _ _ _ _ L1 i) as (ch & LZ & OK). exists ch. split; [|exact OK].
    apply lz_frame with (nx := w_next s1); [exact LZ|]. intros x I. apply HN. apply (okchain_in _ _ _ _ OK) in I. apply bucket_in in I. tauto. }
  assert (DJ : forall x, In x (without k (act t)) -> x <> k /\ ~ In x (dis t)).
  { intros x I. split; [intros ->; contradiction|]. apply (l_act _ _ _ _ _ _ L1 x I). }
  set (s3 := if Head s2 =? 0 then set_removed s2 k k else set_removed (set_next s2 (upd (w_next s2) (Tail s2) k)) (Head s2) k).
  assert (L3 : links c s3 (Head s3) (without k (act t)) (dis t ++ [k]) (nms t) /\ Tail s3 = k /\ w_name s3 = w_name s /\ w_len s3 = w_len s /\
    disabled s3 = upd (disabled s) k true /\ b64bit s3 = b64bit s /\ renamed s3 = renamed s /\ syscallname s3 = syscallname s).
  { assert (C3 : Tail s3 = k /\ w_name s3 = w_name s /\ w_len s3 = w_len s /\ disabled s3 = upd (disabled s) k true /\ b64bit s3 = b64bit s /\ renamed s3 = renamed s /\ syscallname s3 = syscallname s).
    { destruct F1. unfold s3. destruct (Head s2 =? 0); cbn [set_removed s2 set_disabled set_next Tail w_name w_len disabled b64bit renamed syscallname]; rewrite d_dis; auto 10. }
    split; [|exact C3]. destruct C3 as (_ & W1 & W2 & _).
    pose proof (l_rem _ _ _ _ _ _ L1) as RM.
    split.
    - intros x TX. unfold name_of. rewrite W1, W2. apply (l_nm _ _ _ _ _ _ L x TX).
    - intros i. rewrite W2. rewrite <- (d_len _ _ F1). unfold s3. destruct (Z.eqb_spec (Head s2) 0) as [HZ|HN].
      + apply (CHN (upd (w_next s1) k 0)). intros x I. apply upd_other. apply (DJ x I).
      + apply (CHN (upd (upd (w_next s1) k 0) (Tail s2) k)). intros x I. destruct (DJ x I) as [D1 D2].
        assert (x <> Tail s2).
        { intros ->. apply D2. rewrite T2. destruct (dis t) as [|y l] eqn:ED.
          - cbn [lz] in RM. congruence.
          - rewrite (r_tail _ _ R) by (rewrite ED; discriminate). rewrite ED. apply last_in'. discriminate. }
        rewrite !upd_other by assumption. reflexivity.
    - apply (l_nda _ _ _ _ _ _ L1).
    - intros x I. split; [apply (l_act _ _ _ _ _ _ L1 x I)|]. intros J. destruct (DJ x I). apply in_app_or in J as [J|[J|[]]]; congruence.
    - apply NoDup_snoc; [apply (l_ndd _ _ _ _ _ _ L)|exact ND].
    - intros x I. apply in_app_or in I as [I|[<-|[]]]; [apply (l_dis _ _ _ _ _ _ L x I)|exact K].
    - unfold s3. rewrite H2. destruct (Z.eqb_spec (Head s) 0) as [HZ|HN].
      + assert (ED : dis t = []) by (destruct (dis t) as [|y l]; [reflexivity|cbn [lz] in RM; destruct RM as (A & B & _); congruence]).
        rewrite ED. cbn [app lz set_removed Head w_next s2 set_disabled set_next]. rewrite upd_same. auto.
      + assert (ED : dis t <> []) by (intros E; rewrite E in RM; cbn [lz] in RM; congruence).
        cbn [set_removed Head w_next s2 set_disabled set_next]. rewrite T2, (r_tail _ _ R ED).
        apply lz_snoc; try assumption.
        * apply lz_frame with (nx := w_next s1); [exact RM|]. intros x I. apply upd_other. intros ->. contradiction.
        * apply (l_ndd _ _ _ _ _ _ L).
        * apply upd_same. }
  destruct L3 as (L3 & W0 & W1 & W2 & W3 & W4 & W5 & W6).
  exists s3. split; [reflexivity|]. split; cbn [act nms dis ren mode].
  - exact L3.
  - intros _. rewrite last_last. exact W0.
  - intros x. rewrite W3. unfold inb. rewrite existsb_app. cbn [existsb]. rewrite Bool.orb_false_r.
    unfold upd. destruct (x =? k); [rewrite Bool.orb_true_r; reflexivity|]. rewrite Bool.orb_false_r. apply (r_disb _ _ R).
  - rewrite W4. apply (r_mode _ _ R).
  - rewrite W5. apply (r_ren _ _ R).
  - apply (r_ndr _ _ R).
  - apply (r_rent _ _ R).
  - rewrite W1. apply (r_heap _ _ R).
  - rewrite W1. apply (r_orig _ _ R).
  - rewrite W1. apply (r_sys _ _ R).
  - apply (r_sysnm _ _ R).
  - rewrite W6. apply (r_sysn _ _ R).
  - intros J. apply in_app_or in J as [J|[J|[]]]; [apply (r_sysd _ _ R J)|congruence].
  - intros M1 x I J. apply without_in in J as [J _]. apply (r_64 _ _ R M1 x I J).
  - intros M1 x I J. apply without_in in J as [J _]. apply (r_32 _ _ R M1 x I J).
Qed.

Lemma syslen : zlen (orig X sysk) = 7.
Proof. destruct OKC as (_ & _ & _ & _ & _ & _ & _ & H). exact H. Qed.
Lemma syscall_bytes : Forall is_byte syscall_.
Proof. apply Forall_forall. intros x I. unfold is_byte. cbn in I. lia. Qed.
Lemma nin_without k a : ~ In k (without k a).
Proof. intros I. apply without_in in I. tauto. Qed.

Lemma sim_mode s t b : rep s t -> exists s', Set64Bit c s b = Ok s' /\ rep s' (fst (step X (Mode b) t)).
Proof.
  intros R. unfold Set64Bit. rewrite (r_mode _ _ R). cbn [step]. destruct (Bool.eqb b (mode t)) eqn:EM; [cbn [fst]; eauto|].
  pose proof (r_links _ _ R) as L. pose proof sys_ok as SK. pose proof sys_nin as [SN64 SN32]. pose proof (r_sysd _ _ R) as SD.
  destruct b; cbn [fst].
  - assert (M : mode t = false) by (destruct (mode t); [discriminate|reflexivity]).
    destruct (remove_links c s _ _ _ _ sysk L SK) as (s1 & E1 & L1 & F1). rewrite E1. cbn [bindr]. cbv zeta.
    assert (WL : w_len s1 sysk + 1 = 8).
    { rewrite (d_len _ _ F1). destruct (l_nm _ _ _ _ _ _ L sysk SK) as (_ & N2 & _). rewrite N2, (r_sysnm _ _ R), M, syslen. reflexivity. }
    rewrite WL.
    pose proof (name_links c s1 _ _ _ _ sysk (Str (strSyscall_ c)) 8 syscall_ L1 (nin_without _ _) mem_sys eq_refl syscall_bytes) as L2.
    destruct (add_links c _ _ _ _ _ sysk L2 SK (nin_without _ _) SD) as (s3 & E3 & L3 & F3). rewrite E3. cbn [bindr].
    assert (D3 : forall k, disabled s3 k = inb k (dis t)).
    { intros k. rewrite (d_dis _ _ F3). cbn [set_name disabled]. rewrite (d_dis _ _ F1). apply (r_disb _ _ R). }
    destruct (add_all_links c (tokens64 c) _ _ _ _ _ L3) as (s4 & E4 & L4 & F4).
    { intros k I. split; [apply tok64; exact I|]. intros J. apply in_app_or in J as [J|[J|[]]]; [|congruence].
      apply without_in in J as [J _]. apply (r_64 _ _ R M k I J). }
    { exact nd64. }
    { exact D3. }
    rewrite E4. cbn [bindr].
    assert (D4 : forall k, disabled s4 k = inb k (dis t)) by (intros k; rewrite (d_dis _ _ F4); apply D3).
    destruct (remove_all_links c (tokens32 c) _ _ _ _ _ L4 tok32 D4) as (s5 & E5 & L5 & F5). rewrite E5. cbn [bindr].
    eexists. split; [reflexivity|].
    assert (FF : frd (set_name s1 sysk (Str (strSyscall_ c)) 8) s5) by (eapply frd_trans; [exact F3|]; eapply frd_trans; [exact F4|exact F5]).
    split; cbn [act nms dis ren mode set_mode Head Tail disabled b64bit renamed w_name syscallname].
    + rewrite (d_head _ _ FF). cbn [set_name Head]. rewrite (d_head _ _ F1). eapply links_same; [exact L5|reflexivity..].
    + rewrite (d_tail _ _ FF). cbn [set_name Tail]. rewrite (d_tail _ _ F1). apply (r_tail _ _ R).
    + intros k. rewrite (d_dis _ _ F5). apply D4.
    + reflexivity.
    + rewrite (d_ren _ _ FF). cbn [set_name renamed]. rewrite (d_ren _ _ F1). apply (r_ren _ _ R).
    + apply (r_ndr _ _ R).
    + apply (r_rent _ _ R).
    + intros k I. destruct (r_rent _ _ R k I) as [_ NE]. rewrite (d_name _ _ FF). cbn [set_name w_name]. rewrite upd_other by exact NE. cbn [sys lex]. rewrite updn_other by exact NE.
      rewrite (d_name _ _ F1). apply (r_heap _ _ R k I).
    + intros k TK NE I. rewrite (d_name _ _ FF). cbn [set_name w_name]. rewrite upd_other by exact NE. cbn [sys lex]. rewrite updn_other by exact NE.
      rewrite (d_name _ _ F1). apply (r_orig _ _ R k TK NE I).
    + rewrite (d_name _ _ FF). cbn [set_name w_name]. apply upd_same.
    + apply updn_same.
    + intros _. rewrite (d_name _ _ F1), (r_sys _ _ R), M. reflexivity.
    + exact SD.
    + discriminate.
    + intros _ k I J. apply off_in in J as [_ J]. apply J. exact I.
  - assert (M : mode t = true) by (destruct (mode t); [reflexivity|discriminate]).
    destruct (remove_all_links c (tokens64 c) _ _ _ _ _ L (fun k I => proj1 (tok64 k I)) (r_disb _ _ R)) as (s1 & E1 & L1 & F1). rewrite E1. cbn [bindr].
    assert (D1 : forall k, disabled s1 k = inb k (dis t)) by (intros k; rewrite (d_dis _ _ F1); apply (r_disb _ _ R)).
    destruct (add_all_links c (tokens32 c) _ _ _ _ _ L1) as (s2 & E2 & L2 & F2).
    { intros k I. split; [apply tok32; exact I|]. intros J. apply off_in in J as [J _]. apply (r_32 _ _ R M k I J). }
    { exact nd32. }
    { exact D1. }
    rewrite E2. cbn [bindr].
    destruct (remove_links c s2 _ _ _ _ sysk L2 SK) as (s3 & E3 & L3 & F3). rewrite E3. cbn [bindr]. cbv zeta.
    assert (FA : frd s s3) by (eapply frd_trans; [exact F1|]; eapply frd_trans; [exact F2|exact F3]).
    assert (WL : w_len s3 sysk - 1 = zlen (orig X sysk)).
    { rewrite (d_len _ _ FA). destruct (l_nm _ _ _ _ _ _ L sysk SK) as (_ & N2 & _). rewrite N2, (r_sysnm _ _ R), M, syslen. reflexivity. }
    rewrite WL. rewrite (d_sys _ _ FA), (r_sysn _ _ R M).
    pose proof (name_links c s3 _ _ _ _ sysk (Str (off0 sysk)) _ (orig X sysk) L3 (nin_without _ _) (mem_orig _ SK) eq_refl (words_bytes _)) as L4.
    destruct (add_links c _ _ _ _ _ sysk L4 SK (nin_without _ _) SD) as (s5 & E5 & L5 & F5). rewrite E5. cbn [bindr].
    eexists. split; [reflexivity|].
    split; cbn [act nms dis ren mode set_mode Head Tail disabled b64bit renamed w_name syscallname].
    + rewrite (d_head _ _ F5). cbn [set_name Head]. rewrite (d_head _ _ FA). eapply links_same; [exact L5|reflexivity..].
    + rewrite (d_tail _ _ F5). cbn [set_name Tail]. rewrite (d_tail _ _ FA). apply (r_tail _ _ R).
    + intros k. rewrite (d_dis _ _ F5). cbn [set_name disabled]. rewrite (d_dis _ _ FA). apply (r_disb _ _ R).
    + reflexivity.
    + rewrite (d_ren _ _ F5). cbn [set_name renamed]. rewrite (d_ren _ _ FA). apply (r_ren _ _ R).
    + apply (r_ndr _ _ R).
    + apply (r_rent _ _ R).
    + intros k I. destruct (r_rent _ _ R k I) as [_ NE]. rewrite (d_name _ _ F5). cbn [set_name w_name]. rewrite upd_other by exact NE. cbn [sys lex]. rewrite updn_other by exact NE.
      rewrite (d_name _ _ FA). apply (r_heap _ _ R k I).
    + intros k TK NE I. rewrite (d_name _ _ F5). cbn [set_name w_name]. rewrite upd_other by exact NE. cbn [sys lex]. rewrite updn_other by exact NE.
      rewrite (d_name _ _ FA). apply (r_orig _ _ R k TK NE I).
    + rewrite (d_name _ _ F5). cbn [set_name w_name]. apply upd_same.
    + apply updn_same.
    + discriminate.
    + exact SD.
    + intros _ k I J. apply in_app_or in J as [J|[J|[]]]; [|cbn [sys lex] in J; congruence].
      apply without_in in J as [J _]. apply in_app_or in J as [J|J]; [apply off_in in J; tauto|].
      apply filter_In in J as [J _]. apply (dj6432 k I J).
    + discriminate.
Qed.

(** end of the module *)
Lemma links_drop s h a k d nm : links c s h a (k :: d) nm -> h = k /\ k <> 0 /\ links c s (w_next s k) a d nm /\ tok_ok c k /\ ~ In k a /\ ~ In k d.
Proof.
  intros L. pose proof (l_rem _ _ _ _ _ _ L) as RM. cbn [lz] in RM. destruct RM as (-> & NZ & RM).
  pose proof (l_ndd _ _ _ _ _ _ L) as ND. apply NoDup_cons_iff in ND as [N1 N2].
  split; [reflexivity|]. split; [exact NZ|]. split; [|split; [apply (l_dis _ _ _ _ _ _ L); left; reflexivity|split; [|exact N1]]].
  - split; try apply L; try assumption.
    + intros x I. destruct (l_act _ _ _ _ _ _ L x I) as [A B]. split; [exact A|]. intros J. apply B. right. exact J.
    + intros x I. apply (l_dis _ _ _ _ _ _ L). right. exact I.
  - intros I. apply (l_act _ _ _ _ _ _ L k I). left. reflexivity.
Qed.
Record frw (s s' : rw) : Prop := {
  e_name : w_name s' = w_name s; e_len : w_len s' = w_len s; e_ren : renamed s' = renamed s;
  e_mode : b64bit s' = b64bit s; e_sys : syscallname s' = syscallname s }.
Lemma fini_removed_links : forall d fuel s h a nm, links c s h a d nm -> (length d < fuel)%nat -> (forall k, disabled s k = inb k d) ->
  exists s', fini_removed fuel c h s = Ok s' /\ links c s' 0 (a ++ filter (fun k => negb (flag_x64 c k)) d) [] nm /\ frw s s' /\
    (forall k, disabled s' k = false) /\ Head s' = 0 /\ Tail s' = 0.
Proof.
  induction d as [|k d IH]; intros fuel s h a nm L FU D; (destruct fuel as [|fuel]; [cbn [length] in FU; lia|]); cbn [fini_removed].
  - pose proof (l_rem _ _ _ _ _ _ L) as RM. cbn [lz] in RM. rewrite RM. cbn [Z.eqb]. eexists. split; [reflexivity|].
    split; [cbn [filter]; rewrite app_nil_r; rewrite <- RM; eapply links_same; [exact L|reflexivity..]|].
    split; [split; reflexivity|]. split; [exact D|]. split; reflexivity.
  - destruct (links_drop _ _ _ _ _ _ L) as (-> & NZ & LD & K & NA & ND). replace (k =? 0) with false by lia. cbv zeta.
    set (s1 := set_disabled s k false). assert (L1 : links c s1 (w_next s k) a d nm) by (eapply links_same; [exact LD|reflexivity..]).
    assert (D1 : forall x, disabled s1 x = inb x d).
    { intros x. unfold s1. cbn [set_disabled disabled]. unfold upd. destruct (Z.eqb_spec x k) as [->|NE].
      - symmetry. apply inb_false. exact ND.
      - rewrite D. change (inb x (k :: d)) with ((x =? k) || inb x d). replace (x =? k) with false by lia. reflexivity. }
    cbn [length] in FU. cbn [filter]. destruct (flag_x64 c k); cbn [negb bindr].
    + destruct (IH fuel s1 (w_next s k) a nm L1 ltac:(lia) D1) as (s' & E & L' & F & DD & HH & TT). exists s'. split; [exact E|]. split; [exact L'|].
      split; [|auto]. destruct F. split; assumption.
    + destruct (add_links c s1 _ _ _ _ k L1 K NA ND) as (s2 & E2 & L2 & F2). rewrite E2. cbn [bindr].
      destruct (IH fuel s2 (w_next s k) _ nm L2 ltac:(lia)) as (s' & E & L' & F & DD & HH & TT); [intros x; rewrite (d_dis _ _ F2); apply D1|].
      exists s'. split; [exact E|]. split; [rewrite <- app_assoc in L'; exact L'|]. split; [|auto].
      destruct F as [G1 G2 G3 G4 G5]. destruct F2 as [H1 H2 H3 H4 H5 H6 H7 H8]. split; [rewrite G1, H1|rewrite G2, H2|rewrite G3, H4|rewrite G4, H7|rewrite G5, H8]; reflexivity.
Qed.

Lemma fini_renamed_links : forall l s h a d nm, links c s h a d nm -> NoDup l -> (forall k, In k l -> tok_ok c k /\ In k a) ->
  exists s', fini_renamed c (map (fun k => (k, Str (off0 k), zlen (orig X k))) l) s = Ok s' /\
    links c s' h (fold_left (fun a k => without k a ++ [k]) l a) d (fun k => if inb k l then orig X k else nm k) /\
    (forall k, w_name s' k = if inb k l then Str (off0 k) else w_name s k) /\ disabled s' = disabled s /\ renamed s' = [] /\
    Head s' = Head s /\ Tail s' = Tail s /\ b64bit s' = b64bit s /\ syscallname s' = syscallname s.
Proof.
  induction l as [|k l IH]; intros s h a d nm L NDL IN; cbn [map fini_renamed fold_left].
  - eexists. split; [reflexivity|]. split; [eapply links_same; [exact L|reflexivity..]|]. cbn [inb existsb]. auto 10.
  - apply NoDup_cons_iff in NDL as [NI NDL]. destruct (IN k (or_introl eq_refl)) as [K KA].
    destruct (l_act _ _ _ _ _ _ L k KA) as [_ KD].
    destruct (remove_links c s _ _ _ _ k L K) as (s1 & E1 & L1 & F1). rewrite E1. cbn [bindr].
    pose proof (name_links c s1 _ _ _ _ k (Str (off0 k)) _ (orig X k) L1 (nin_without _ _) (mem_orig _ K) eq_refl (words_bytes _)) as L2.
    destruct (add_links c _ _ _ _ _ k L2 K (nin_without _ _) KD) as (s3 & E3 & L3 & F3). rewrite E3. cbn [bindr].
    destruct (IH s3 _ _ _ _ L3 NDL) as (s' & E & L' & W1 & W2 & W3 & W4 & W5 & W6 & W7).
    { intros x I. destruct (IN x (or_intror I)) as [A B]. split; [exact A|]. apply in_or_app. destruct (Z.eq_dec x k) as [->|NE]; [right; left; reflexivity|left; apply without_in; auto]. }
    exists s'. split; [exact E|]. split; [eapply links_ext; [exact L'|]|split].
    + intros x _. cbn beta. change (inb x (k :: l)) with ((x =? k) || inb x l). destruct (inb x l) eqn:XI; [rewrite Bool.orb_true_r; reflexivity|].
      rewrite Bool.orb_false_r. unfold updn. destruct (Z.eqb_spec x k) as [->|]; reflexivity.
    + intros x. rewrite W1. change (inb x (k :: l)) with ((x =? k) || inb x l). destruct (inb x l) eqn:XI; [rewrite Bool.orb_true_r; reflexivity|].
      rewrite Bool.orb_false_r. rewrite (d_name _ _ F3). cbn [set_name w_name]. unfold upd. rewrite (d_name _ _ F1). destruct (Z.eqb_spec x k) as [->|]; reflexivity.
    + destruct F1 as [G1 G2 G3 G4 G5 G6 G7 G8]. destruct F3 as [H1 H2 H3 H4 H5 H6 H7 H8]. cbn [set_name disabled Head Tail b64bit syscallname] in *.
      rewrite W2, W4, W5, W6, W7, H3, H5, H6, H7, H8. repeat (split; [assumption|]). assumption.
Qed.

Lemma fold_in : forall l a x, In x (fold_left (fun a k => without k a ++ [k]) l a) -> In x l \/ In x a.
Proof.
  induction l as [|k l IH]; intros a x I; cbn [fold_left] in I; [auto|]. apply IH in I as [I|I]; [left; right; exact I|].
  apply in_app_or in I as [I|[<-|[]]]; [apply without_in in I; tauto|left; left; reflexivity].
Qed.
Lemma sim_end s t : rep s t -> mode t = false -> (forall k, In k (ren t) -> In k (act t)) ->
  exists s', ResWordsFini c s = Ok s' /\ rep s' (fst (step X EndModule t)).
Proof.
  intros R M RA. unfold ResWordsFini. rewrite (r_ren _ _ R).
  destruct (fini_renamed_links (ren t) s _ _ _ _ (r_links _ _ R) (r_ndr _ _ R)) as (s1 & E1 & L1 & W1 & W2 & W3 & W4 & W5 & W6 & W7).
  { intros k I. split; [apply (r_rent _ _ R k I)|apply RA; exact I]. }
  rewrite E1. cbn [bindr]. rewrite W4.
  assert (LD : (length (dis t) < steps c)%nat).
  { unfold steps. apply le_n_S. apply bounded_length; [apply (l_ndd _ _ _ _ _ _ L1)|]. intros x I. apply (l_dis _ _ _ _ _ _ L1 x I). }
  destruct (fini_removed_links (dis t) (steps c) s1 _ _ _ L1 LD) as (s' & E & L' & F & DD & HH & TT).
  { intros k. rewrite W2. apply (r_disb _ _ R). }
  exists s'. split; [exact E|]. cbn [step fst]. destruct F as [G1 G2 G3 G4 G5].
  assert (NS : inb sysk (ren t) = false) by (apply inb_false; intros I; destruct (r_rent _ _ R _ I); congruence).
  split; cbn [act nms dis ren mode].
  - rewrite HH. exact L'.
  - congruence.
  - exact DD.
  - rewrite G4, W6. apply (r_mode _ _ R).
  - rewrite G3, W3. reflexivity.
  - constructor.
  - intros k [].
  - intros k [].
  - intros k TK NE _. rewrite G1, W1. destruct (inb k (ren t)) eqn:I; [auto|]. apply inb_false in I. apply (r_orig _ _ R k TK NE I).
  - rewrite G1, W1, NS. apply (r_sys _ _ R).
  - rewrite NS. apply (r_sysnm _ _ R).
  - congruence.
  - intros [].
  - intros _ k I J. apply in_app_or in J as [J|J].
    + apply fold_in in J as [J|J]; [apply RA in J|]; apply (r_64 _ _ R M k I J).
    + apply filter_In in J as [_ J]. destruct (tok64 k I) as [_ X64]. cbn [is_x64 lex] in J; rewrite X64 in J. discriminate.
  - congruence.
Qed.

(** start *)
Lemma firstn_snoc {A} (l : list A) d : forall j, (j < length l)%nat -> firstn (S j) l = firstn j l ++ [nth j l d].
Proof. induction l as [|x l IH]; intros [|j] J; cbn [length] in J; try lia; [reflexivity|]. cbn [firstn nth app]. f_equal. apply IH. lia. Qed.
Lemma seq_snoc i n : seq i (S n) = seq i n ++ [(i + n)%nat].
Proof. apply seq_S. Qed.
Lemma init_loop_links : forall ws j s, ws = skipn j (words c) -> (j <= length (words c))%nat ->
  links c s 0 (filter (fun k => negb (flag_x64 c k)) (tokens j)) [] (fun k => if k <=? Z.of_nat j then orig X k else []) ->
  (forall k, 1 <= k <= Z.of_nat j -> w_name s k = Str (off0 k)) ->
  (forall k, disabled s k = false) -> renamed s = [] -> Head s = 0 -> b64bit s = false ->
  exists s', init_loop c ws (Z.of_nat j + 1) (zlen (concat (map fst (firstn j (words c))))) s = Ok s' /\
   links c s' 0 (filter (fun k => negb (flag_x64 c k)) (tokens (length (words c)))) [] (orig X) /\
   (forall k, tok_ok c k -> w_name s' k = Str (off0 k)) /\
   (forall k, disabled s' k = false) /\ renamed s' = [] /\ Head s' = 0 /\ b64bit s' = false.
Proof.
  induction ws as [|w ws IH]; intros j s EW JL L WN D1 D2 D3 D4; cbn [init_loop].
  - assert (EJ : j = length (words c)).
    { destruct (Nat.eq_dec j (length (words c))) as [|N]; [assumption|]. assert (length (skipn j (words c)) = 0%nat) by (rewrite <- EW; reflexivity). rewrite skipn_length in H. lia. }
    subst j. exists s. split; [reflexivity|]. split; [|split; [intros k K; apply WN; exact K|auto]].
    eapply links_ext; [exact L|]. intros k K. unfold tok_ok, ntok in K. cbn beta. replace (k <=? Z.of_nat (length (words c))) with true by lia. reflexivity.
  - assert (JL' : (j < length (words c))%nat).
    { assert (length (skipn j (words c)) = S (length ws)) by (rewrite <- EW; reflexivity). rewrite skipn_length in H. lia. }
    set (k := Z.of_nat j + 1). assert (K : tok_ok c k) by (unfold tok_ok, ntok, k; lia).
    assert (W : w = nth j (words c) ([], (false, false)) /\ ws = skipn (S j) (words c)).
    { clear -EW JL'. revert j EW JL'. induction (words c) as [|x l IHl]; intros [|j] EW JL'; cbn [length] in JL'; try lia.
      - cbn [skipn] in EW. inversion EW. auto.
      - cbn [skipn] in EW. cbn [nth skipn]. apply IHl; [exact EW|lia]. }
    destruct W as [W1 W2].
    assert (OK : orig X k = fst w) by (cbn [orig lex]; unfold k; replace (Z.to_nat (Z.of_nat j + 1 - 1)) with j by lia; rewrite W1; reflexivity).
    set (p := zlen (concat (map fst (firstn j (words c))))).
    assert (P : p = off0 k) by (unfold p, off0, k; replace (Z.to_nat (Z.of_nat j + 1 - 1)) with j by lia; reflexivity).
    assert (NI : ~ In k (tokens j)) by (unfold tokens; rewrite in_map_iff; intros (x & XE & XI); apply in_seq in XI; unfold k in XE; lia).
    assert (NI' : ~ In k (filter (fun k => negb (flag_x64 c k)) (tokens j))) by (intros I; apply filter_In in I as [I _]; contradiction).
    pose proof (name_links c s _ _ _ _ k (Str p) (zlen (fst w)) (fst w) L NI') as L1.
    rewrite P in L1. rewrite <- OK in L1 at 1. specialize (L1 ltac:(rewrite mem_orig by exact K; exact OK) eq_refl ltac:(rewrite <- OK; apply words_bytes)).
    assert (TS : tokens (S j) = tokens j ++ [k]) by (unfold tokens; rewrite seq_snoc, map_app; cbn [map]; repeat f_equal; unfold k; lia).
    assert (PS : p + zlen (fst w) = zlen (concat (map fst (firstn (S j) (words c))))).
    { unfold p. rewrite (firstn_snoc _ ([], (false, false))) by exact JL'. rewrite map_app, concat_app, zlen_app. cbn [map concat]. rewrite app_nil_r, <- W1. reflexivity. }
    set (s1 := set_name s k (Str (off0 k)) (zlen (fst w))) in *. rewrite P in *. fold s1.
    assert (STEP : forall s2, frd s1 s2 -> links c s2 0 (filter (fun k => negb (flag_x64 c k)) (tokens (S j))) [] (updn (fun k => if k <=? Z.of_nat j then orig X k else []) k (fst w)) ->
       exists s', init_loop c ws (k + 1) (off0 k + zlen (fst w)) s2 = Ok s' /\
         links c s' 0 (filter (fun k => negb (flag_x64 c k)) (tokens (length (words c)))) [] (orig X) /\
         (forall k, tok_ok c k -> w_name s' k = Str (off0 k)) /\ (forall k, disabled s' k = false) /\ renamed s' = [] /\ Head s' = 0 /\ b64bit s' = false).
    { intros s2 F L2. rewrite PS. replace (k + 1) with (Z.of_nat (S j) + 1) by (unfold k; lia). apply IH.
      - exact W2.
      - lia.
      - eapply links_ext; [exact L2|]. intros x XK. cbn beta. unfold updn. destruct (Z.eqb_spec x k) as [->|NE].
        + rewrite OK. unfold k. replace (Z.of_nat j + 1 <=? Z.of_nat (S j)) with true by lia. reflexivity.
        + unfold k in NE. replace (x <=? Z.of_nat (S j)) with (x <=? Z.of_nat j) by lia. reflexivity.
      - intros x XK. rewrite (d_name _ _ F). unfold s1. cbn [set_name w_name]. unfold upd. destruct (Z.eqb_spec x k) as [->|NE]; [reflexivity|]. apply WN. unfold k in NE. lia.
      - intros x. rewrite (d_dis _ _ F). apply D1.
      - rewrite (d_ren _ _ F). apply D2.
      - rewrite (d_head _ _ F). apply D3.
      - rewrite (d_mode _ _ F). apply D4. }
    rewrite TS in STEP. rewrite filter_app in STEP. cbn [filter] in STEP. destruct (flag_x64 c k); cbn [negb] in *; cbn [bindr].
    + apply STEP; [apply frd_refl|]. rewrite app_nil_r. exact L1.
    + destruct (add_links c s1 _ _ _ _ k L1 K NI' (fun H => H)) as (s2 & E2 & L2 & F2). rewrite E2. cbn [bindr]. apply STEP; assumption.
Qed.

Lemma sim_init : exists s, ResWordsInit c = Ok s /\ rep s (init X).
Proof.
  unfold ResWordsInit. destruct (init_loop_links (words c) 0 zero) as (s & E & L & W & D1 & D2 & D3 & D4); try reflexivity; try lia.
  { split.
    - intros k K. unfold tok_ok in K. change (Z.of_nat 0) with 0. replace (k <=? 0) with false by lia. split; [reflexivity|]. split; [reflexivity|constructor].
    - intros i. exists []. split; [reflexivity|]. cbn. split; [constructor|]. split; [exact I|reflexivity].
    - constructor.
    - intros k [].
    - constructor.
    - intros k [].
    - reflexivity. }
  exists s. split; [exact E|]. split; unfold init; cbn [act nms dis ren mode].
  - rewrite D3. cbn [size lex is_x64]. unfold zlen. rewrite Nat2Z.id. exact L.
  - congruence.
  - exact D1.
  - exact D4.
  - exact D2.
  - constructor.
  - intros k [].
  - intros k [].
  - intros k K _ _. split; [apply W; exact K|reflexivity].
  - apply W. apply sys_ok.
  - reflexivity.
  - discriminate.
  - intros [].
  - intros _ k I J. apply filter_In in J as [_ J]. destruct (tok64 k I) as [_ X64]. cbn [is_x64 lex] in J. rewrite X64 in J. discriminate.
  - discriminate.
Qed.

Lemma sim_exec o s t : rep s t -> allowed X o t -> exists s', exec c o s = Ok (s', snd (step X o t)) /\ rep s' (fst (step X o t)).
Proof.
  intros R A. destruct o as [n|k n|k|b|]; cbn [exec].
  - cbn [allowed] in A. rewrite (FindResWord_spec c s _ _ _ _ n (r_links _ _ R)) by apply A. cbn [bindr]. exists s. split; [reflexivity|exact R].
  - destruct A as (A1 & A2 & A3 & A4). destruct (sim_rename s t k n R A1 A2 A3 A4) as (s' & E & R'). rewrite E. cbn [bindr]. exists s'. split; [|exact R'].
    cbn [step]. destruct (same_name n (nms t k)); reflexivity.
  - destruct A as (A1 & A2). destruct (sim_disable s t k R A1 A2) as (s' & E & R'). rewrite E. cbn [bindr]. exists s'. split; [|exact R'].
    cbn [step]. destruct (inb k (dis t)); reflexivity.
  - destruct (sim_mode s t b R) as (s' & E & R'). rewrite E. cbn [bindr]. exists s'. split; [|exact R'].
    cbn [step]. destruct (Bool.eqb b (mode t)); [reflexivity|]. destruct b; reflexivity.
  - destruct A as (A1 & A2). destruct (sim_end s t R A1 A2) as (s' & E & R'). rewrite E. cbn [bindr]. exists s'. split; [reflexivity|exact R'].
Qed.
Lemma sim_run : forall l s t, rep s t -> all_allowed X l t ->
  exists s', run_model c l s = Ok (s', snd (run_spec X l t)) /\ rep s' (fst (run_spec X l t)).
Proof.
  induction l as [|o l IH]; intros s t R A; cbn [run_model run_spec].
  - exists s. split; [reflexivity|exact R].
  - destruct A as [A1 A2]. destruct (sim_exec o s t R A1) as (s1 & E1 & R1). rewrite E1. cbn [bindr].
    destruct (IH s1 _ R1 A2) as (s2 & E2 & R2). rewrite E2. cbn [bindr]. exists s2.
    destruct (step X o t) as [t1 r]. cbn [fst snd] in *. destruct (run_spec X l t1) as [t2 rs]. cbn [fst snd] in *. split; [reflexivity|exact R2].
Qed.
(** the words of a module end are those of the start *)
Definition inv2 (t : state) : Prop :=
  (forall k, In k (act t) -> tok_ok c k /\ (flag_x64 c k = false \/ In k (tokens64 c))) /\
  (forall k, tok_ok c k -> flag_x64 c k = false -> In k (act t) \/ In k (dis t) \/ (mode t = true /\ In k (tokens32 c))) /\
  (forall k, In k (dis t) -> tok_ok c k).
Lemma inv2_init : inv2 (init X).
Proof.
  assert (T : forall k, In k (tokens (Z.to_nat (size X))) <-> tok_ok c k).
  { intros k. unfold tokens, tok_ok, ntok. cbn [size lex]. unfold zlen. rewrite Nat2Z.id, in_map_iff. split.
    - intros (x & <- & I). apply in_seq in I. lia.
    - intros H. exists (Z.to_nat k). split; [lia|]. apply in_seq. lia. }
  split; [|split]; unfold init; cbn [act dis mode].
  - intros k I. apply filter_In in I as [I J]. cbn [is_x64 lex] in J. apply T in I. destruct (flag_x64 c k); [discriminate|auto].
  - intros k K F. left. apply filter_In. split; [apply T; exact K|]. cbn [is_x64 lex]. rewrite F. reflexivity.
  - intros k [].
Qed.
Lemma fold_in2 : forall l a x, In x a -> In x (fold_left (fun a k => without k a ++ [k]) l a).
Proof.
  induction l as [|k l IH]; intros a x I; cbn [fold_left]; [exact I|]. apply IH. apply in_or_app.
  destruct (Z.eq_dec x k) as [->|N]; [right; left; reflexivity|left; apply without_in; auto].
Qed.
Lemma inv2_step o t : (forall k, In k (tokens32 c) -> flag_x64 c k = false) -> inv2 t -> allowed X o t -> inv2 (fst (step X o t)).
Proof.
  intros EX I2 A. destruct o as [n|k n|k|b|]; cbn [step].
  - exact I2.
  - destruct (same_name n (nms t k)); [exact I2|]. destruct I2 as (P & Q & D). destruct A as (A1 & _). split; [|split]; cbn [fst act dis mode].
    + intros x J. apply in_app_or in J as [J|[<-|[]]]; [apply without_in in J as [J _]; auto|auto].
    + intros x K F. destruct (Q x K F) as [H|[H|H]]; auto. left. apply in_or_app. destruct (Z.eq_dec x k) as [->|N]; [right; left; reflexivity|left; apply without_in; auto].
    + exact D.
  - destruct (inb k (dis t)); [exact I2|]. destruct I2 as (P & Q & D). destruct A as (A1 & _). split; [|split]; cbn [fst act dis mode].
    + intros x J. apply without_in in J as [J _]. auto.
    + intros x K F. destruct (Q x K F) as [H|[H|H]]; [|right; left; apply in_or_app; auto|auto].
      destruct (Z.eq_dec x k) as [->|N]; [right; left; apply in_or_app; right; left; reflexivity|left; apply without_in; auto].
    + intros x J. apply in_app_or in J as [J|[<-|[]]]; [auto|apply P; exact A1].
  - destruct (Bool.eqb b (mode t)) eqn:EB; [exact I2|]. destruct I2 as (P & Q & D). pose proof sys_ok as SK.
    assert (SX : flag_x64 c sysk = false) by (destruct OKC as (_ & _ & _ & _ & _ & _ & H & _); exact H).
    destruct b; split; [| split | | split]; cbn [fst act dis mode only64 only32 sys lex on].
    + intros x J. apply off_in in J as [J _]. unfold on in J. apply in_app_or in J as [J|J].
      * apply in_app_or in J as [J|[<-|[]]]; [apply without_in in J as [J _]; auto|auto].
      * apply filter_In in J as [J _]. destruct (tok64 x J). auto.
    + intros x K F. destruct (in_dec Z.eq_dec x (tokens32 c)) as [I3|N3]; [auto|]. destruct (Q x K F) as [H|[H|[_ H]]]; [|auto|contradiction].
      left. apply off_in. split; [|exact N3]. apply in_or_app. left. apply in_or_app.
      destruct (Z.eq_dec x sysk) as [->|N]; [right; left; reflexivity|left; apply without_in; auto].
    + exact D.
    + intros x J. apply in_app_or in J as [J|[<-|[]]]; [|auto]. apply without_in in J as [J _]. unfold on in J. apply in_app_or in J as [J|J].
      * apply off_in in J as [J _]. auto.
      * apply filter_In in J as [J _]. split; [apply tok32; exact J|left; apply EX; exact J].
    + intros x K F. destruct (Z.eq_dec x sysk) as [->|N]; [left; apply in_or_app; right; left; reflexivity|].
      destruct (inb x (dis t)) eqn:ID; [apply inb_ok in ID; auto|].
      left. apply in_or_app. left. apply without_in. split; [|exact N]. apply inb_false in ID as ID'. apply in_or_app.
      destruct (Q x K F) as [H|[H|[_ H]]]; [|contradiction|].
      * left. apply off_in. split; [exact H|]. intros J. destruct (tok64 x J) as [_ X1]. congruence.
      * right. apply filter_In. split; [exact H|]. rewrite ID. reflexivity.
    + exact D.
  - destruct I2 as (P & Q & D). destruct A as (A1 & A2). split; [|split]; cbn [fst act dis mode].
    + intros x J. apply in_app_or in J as [J|J].
      * apply fold_in in J as [J|J]; [apply A2 in J|]; auto.
      * apply filter_In in J as [J F]. cbn [is_x64 lex] in F. split; [auto|]. destruct (flag_x64 c x); [discriminate|auto].
    + intros x K F. left. apply in_or_app. destruct (Q x K F) as [H|[H|[H _]]]; [|right; apply filter_In; split; [exact H|cbn [is_x64 lex]; rewrite F; reflexivity]|congruence].
      left. apply fold_in2. exact H.
    + intros x [].
Qed.
Lemma inv2_run (EX : forall k, In k (tokens32 c) -> flag_x64 c k = false) : forall l t, inv2 t -> all_allowed X l t -> inv2 (fst (run_spec X l t)).
Proof.
  induction l as [|o l IH]; intros t I2 A; cbn [run_spec]; [exact I2|]. destruct A as [A1 A2]. pose proof (inv2_step o t EX I2 A1) as I3.
  destruct (step X o t) as [t1 r]. cbn [fst] in *. specialize (IH t1 I3 A2). destruct (run_spec X l t1) as [t2 rs]. exact IH.
Qed.
Lemma run_spec_app : forall l1 l2 t, fst (run_spec X (l1 ++ l2) t) = fst (run_spec X l2 (fst (run_spec X l1 t))).
Proof.
  induction l1 as [|o l1 IH]; intros l2 t; [reflexivity|]. cbn [app run_spec]. destruct (step X o t) as [t1 r]. specialize (IH l2 t1).
  destruct (run_spec X (l1 ++ l2) t1), (run_spec X l1 t1). exact IH.
Qed.
Lemma all_allowed_app : forall l1 l2 t, all_allowed X (l1 ++ l2) t <-> all_allowed X l1 t /\ all_allowed X l2 (fst (run_spec X l1 t)).
Proof.
  induction l1 as [|o l1 IH]; intros l2 t; cbn [app all_allowed run_spec fst]; [tauto|]. rewrite IH. destruct (step X o t) as [t1 r]. cbn [fst].
  destruct (run_spec X l1 t1). cbn [fst]. tauto.
Qed.
Lemma find_unique (P : Z -> bool) : forall l k, In k l -> P k = true -> (forall x, In x l -> P x = true -> x = k) -> find P l = Some k.
Proof.
  induction l as [|x l IH]; intros k I PK U; [destruct I|]. cbn [find]. destruct (P x) eqn:PX; [f_equal; apply U; [left; reflexivity|exact PX]|].
  destruct I as [->|I]; [congruence|]. apply IH; try assumption. intros y J. apply U. right. exact J.
Qed.
Lemma find_none (P : Z -> bool) l : (forall x, In x l -> P x = false) -> find P l = None.
Proof. induction l as [|x l IH]; intros H; [reflexivity|]. cbn [find]. rewrite H by (left; reflexivity). apply IH. intros y J. apply H. right. exact J. Qed.
Definition distinct_names : Prop := forall j k, tok_ok c j -> tok_ok c k -> same_name (orig X j) (orig X k) = true -> j = k.
Lemma same_trans n a b : same_name n a = true -> same_name n b = true -> same_name a b = true.
Proof.
  unfold same_name. destruct (list_eq_dec Z.eq_dec (map fold_case n) (map fold_case a)); [|discriminate].
  destruct (list_eq_dec Z.eq_dec (map fold_case n) (map fold_case b)); [|discriminate]. intros _ _.
  destruct (list_eq_dec Z.eq_dec (map fold_case a) (map fold_case b)); [reflexivity|congruence].
Qed.
Lemma lookup_ext a b n : distinct_names -> (forall k, In k (act a) <-> In k (act b)) -> (forall k, In k (act a) -> tok_ok c k) ->
  (forall k, tok_ok c k -> nms a k = orig X k) -> (forall k, tok_ok c k -> nms b k = orig X k) -> lookup a n = lookup b n.
Proof.
  intros DN EQ TK NA NB. unfold lookup. destruct (find (fun k => same_name n (nms a k)) (act a)) as [k|] eqn:F.
  - apply find_some in F as [F1 F2]. rewrite (find_unique _ (act b) k); [reflexivity|apply EQ; exact F1|rewrite NB by auto; rewrite <- NA by auto; exact F2|].
    intros x XI XP. apply DN; [apply TK, EQ; exact XI|auto|]. rewrite NB in XP by (apply TK, EQ; exact XI). rewrite NA in F2 by auto. apply (same_trans n); assumption.
  - rewrite find_none; [reflexivity|]. intros x I. apply EQ in I.
    pose proof (List.find_none _ _ F x I) as H. cbn beta in H. rewrite NA in H by auto. rewrite NB by auto. exact H.
Qed.
Lemma end_restores l : (forall k, In k (tokens32 c) -> flag_x64 c k = false) -> distinct_names -> all_allowed X (l ++ [EndModule]) (init X) ->
  exists s0 s, ResWordsInit c = Ok s0 /\ bindr (run_model c (l ++ [EndModule]) s0) (fun x => Ok (fst x)) = Ok s /\
    forall n, Forall is_byte n -> FindResWord c s n = FindResWord c s0 n.
Proof.
  intros EX DN A. destruct sim_init as (s0 & E0 & R0). destruct (sim_run (l ++ [EndModule]) s0 _ R0 A) as (s & E & R).
  exists s0, s. split; [exact E0|]. rewrite E. cbn [bindr fst]. split; [reflexivity|]. intros n B.
  rewrite (FindResWord_spec c s _ _ _ _ n (r_links _ _ R) B), (FindResWord_spec c s0 _ _ _ _ n (r_links _ _ R0) B). f_equal.
  pose proof (inv2_run EX _ _ inv2_init A) as I2. rewrite run_spec_app in *. apply all_allowed_app in A as [A1 A2].
  set (t := fst (run_spec X l (init X))) in *. destruct A2 as [[AM AR] _].
  assert (ED : fst (run_spec X [EndModule] t) = fst (step X EndModule t)) by reflexivity. rewrite ED in *. clear ED.
  apply (lookup_ext (fst (step X EndModule t)) (init X) n DN).
  - destruct I2 as (P & Q & D). intros k. destruct inv2_init as (P0 & Q0 & _). split; intros I.
    + destruct (P k I) as [K [F|F]].
      * destruct (Q0 k K F) as [H|[[]|[H _]]]; [exact H|discriminate].
      * exfalso. assert (M' : mode (fst (step X EndModule t)) = false) by exact AM. apply (r_64 _ _ R M' k F I).
    + destruct (P0 k I) as [K [F|F]].
      * destruct (Q k K F) as [H|[[]|[H _]]]; [exact H|]. cbn [step fst mode] in H. congruence.
      * exfalso. apply (r_64 _ _ R0 eq_refl k F I).
  - intros k I. apply (l_act _ _ _ _ _ _ (r_links _ _ R) k I).
  - intros k K. destruct (Z.eq_dec k sysk) as [->|NE].
    + rewrite (r_sysnm _ _ R). cbn [step fst mode]. rewrite AM. reflexivity.
    + apply (r_orig _ _ R k K NE). intros [].
  - reflexivity.
Qed.
End C.
