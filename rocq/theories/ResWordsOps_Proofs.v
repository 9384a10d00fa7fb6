From Verif Require Import Base ResWords_Model ResWords_Spec ResWordsRun_Spec ResWords_Proofs.

Section C.
Variable c : cfg.
Definition ntok := length (words c).
Definition tok_ok (k : Z) : Prop := 1 <= k <= Z.of_nat ntok.
Definition bucket (nm : Z -> list Z) (i : Z) (l : list Z) : list Z := filter (fun k => get_hash (nm k) =? i) l.

(** the linked part of the table: [a] active, [d] a list from [h] on, [nm] names *)
Record links (s : rw) (h : Z) (a d : list Z) (nm : Z -> list Z) : Prop := {
  l_nm : forall k, tok_ok k -> name_of c s k = nm k /\ w_len s k = zlen (nm k) /\ Forall is_byte (nm k);
  l_chain : forall i, exists ch, lz (w_next s) (table s i) ch /\ okchain (w_len s) (bucket nm i a) ch;
  l_nda : NoDup a; l_act : forall k, In k a -> tok_ok k /\ ~ In k d;
  l_ndd : NoDup d; l_dis : forall k, In k d -> tok_ok k;
  l_rem : lz (w_next s) h d }.
(** everything but the links *)
Record frd (s s' : rw) : Prop := {
  d_name : w_name s' = w_name s; d_len : w_len s' = w_len s; d_dis : disabled s' = disabled s; d_ren : renamed s' = renamed s;
  d_head : Head s' = Head s; d_tail : Tail s' = Tail s; d_mode : b64bit s' = b64bit s; d_sys : syscallname s' = syscallname s }.
Lemma frd_trans a b d : frd a b -> frd b d -> frd a d.
Proof. intros [] []. split; congruence. Qed.
Lemma frd_refl a : frd a a.
Proof. split; reflexivity. Qed.

Lemma name_frd s s' k : frd s s' -> name_of c s' k = name_of c s k.
Proof. intros F. unfold name_of. rewrite (d_name _ _ F), (d_len _ _ F). reflexivity. Qed.
Lemma bucket_in nm i l x : In x (bucket nm i l) <-> In x l /\ get_hash (nm x) = i.
Proof. unfold bucket. rewrite filter_In. rewrite Z.eqb_eq. reflexivity. Qed.
Lemma chain_len s h a d nm i ch : links s h a d nm -> okchain (w_len s) (bucket nm i a) ch -> (length ch < steps c)%nat.
Proof.
  intros L O. unfold steps. apply le_n_S. apply bounded_length; [apply O|]. intros x I.
  apply (okchain_in _ _ _ _ O) in I. apply bucket_in in I as [I _]. apply (l_act _ _ _ _ _ L) in I as [I _]. exact I.
Qed.

Lemma remove_links s h a d nm k : links s h a d nm -> tok_ok k ->
  exists s', RemoveResWord c s k = Ok s' /\ links s' h (without k a) d nm /\ frd s s'.
Proof.
  intros L K. unfold RemoveResWord. destruct (l_nm _ _ _ _ _ L k K) as (N1 & N2 & N3). rewrite N1. set (i := get_hash (nm k)).
  destruct (l_chain _ _ _ _ _ L i) as (ch & LZ & OK).
  destruct (remove_loop_spec s i k ch [] (steps c) (table s i)) as (s' & E & F & G).
  - exact LZ.
  - apply OK.
  - apply (chain_len _ _ _ _ _ _ _ L OK).
  - exact LZ.
  - cbn [app last] in *. exists s'. split; [exact E|].
    assert (FD : frd s s') by (destruct F; split; assumption). split; [|exact FD]. specialize (G (fun x => x)).
    assert (CH : forall x, In x ch -> In x a /\ get_hash (nm x) = i) by (intros x I; apply (okchain_in _ _ _ _ OK) in I; apply bucket_in in I; exact I).
    split.
    + intros x X. rewrite (name_frd s s' x FD), (d_len _ _ FD). apply (l_nm _ _ _ _ _ L x X).
    + intros j. rewrite (d_len _ _ FD). assert (BW : forall j, bucket nm j (without k a) = without k (bucket nm j a)) by (intros; apply filter_comm).
      rewrite BW. destruct (Z.eq_dec j i) as [->|NE].
      * exists (without k ch). split; [exact G|]. apply okchain_remove. exact OK.
      * destruct (l_chain _ _ _ _ _ L j) as (chj & LZj & OKj). exists (without k chj). split; [|apply okchain_remove; exact OKj].
        rewrite without_notin.
        -- rewrite (f_table _ _ _ _ F j NE). apply lz_frame with (nx := w_next s); [exact LZj|]. intros x I.
           apply (f_next _ _ _ _ F). intros [J _]. apply (okchain_in _ _ _ _ OKj) in I. apply bucket_in in I as [_ I]. destruct (CH x J). congruence.
        -- intros I. apply (okchain_in _ _ _ _ OKj) in I. apply bucket_in in I as [_ I]. unfold i in NE. congruence.
    + apply filter_NoDup, (l_nda _ _ _ _ _ L).
    + intros x I. apply without_in in I as [I _]. apply (l_act _ _ _ _ _ L x I).
    + apply (l_ndd _ _ _ _ _ L).
    + apply (l_dis _ _ _ _ _ L).
    + apply lz_frame with (nx := w_next s); [apply (l_rem _ _ _ _ _ L)|]. intros x I. apply (f_next _ _ _ _ F).
      intros [J _]. destruct (CH x J) as [J' _]. destruct (l_act _ _ _ _ _ L x J') as [_ N]. contradiction.
Qed.

Lemma last_in' : forall (l : list Z), l <> [] -> In (last l 0) l.
Proof. induction l as [|a l IH]; [congruence|]. intros _. destruct l as [|b l]; [left; reflexivity|]. right. apply IH. discriminate. Qed.

Lemma add_links s h a d nm k : links s h a d nm -> tok_ok k -> ~ In k a -> ~ In k d ->
  exists s', AddResWord c s k = Ok s' /\ links s' h (a ++ [k]) d nm /\ frd s s'.
Proof.
  intros L K NA ND. unfold AddResWord. destruct (l_nm _ _ _ _ _ L k K) as (N1 & N2 & N3). rewrite N1. set (i := get_hash (nm k)).
  destruct (l_chain _ _ _ _ _ L i) as (ch & LZ & OK).
  assert (CH : forall x, In x ch -> In x a /\ get_hash (nm x) = i) by (intros x I; apply (okchain_in _ _ _ _ OK) in I; apply bucket_in in I; exact I).
  assert (NC : ~ In k ch) by (intros I; apply CH in I as [I _]; contradiction).
  destruct (add_loop_spec s k ch [] (steps c) (table s i)) as (p & q & E & A & P & Q).
  - exact LZ.
  - apply (chain_len _ _ _ _ _ _ _ L OK).
  - apply OK.
  - constructor.
  - cbn [app last] in *. cbv zeta. rewrite A. cbn [bindr]. subst ch. unfold tok_ok in K.
    assert (KZ : k <> 0) by lia.
    assert (NP : ~ In k p) by (intros I; apply NC, in_or_app; auto). assert (NQ : ~ In k q) by (intros I; apply NC, in_or_app; auto).
    assert (GEN : forall s', frd s s' -> (forall x, ~ In x (k :: p) -> w_next s' x = w_next s x) -> (forall j, j <> i -> table s' j = table s j) ->
      lz (w_next s') (table s' i) (p ++ k :: q) -> links s' h (a ++ [k]) d nm).
    { intros s' FD FN FT LZ'. split.
      - intros x X. rewrite (name_frd s s' x FD), (d_len _ _ FD). apply (l_nm _ _ _ _ _ L x X).
      - intros j. rewrite (d_len _ _ FD). unfold bucket. rewrite filter_app. cbn [filter]. fold i. destruct (Z.eqb_spec i j) as [<-|NE].
        + exists (p ++ k :: q). split; [exact LZ'|]. apply okchain_insert; [exact OK|exact NC|exact P|exact Q].
        + rewrite app_nil_r. destruct (l_chain _ _ _ _ _ L j) as (chj & LZj & OKj). exists chj. split; [|exact OKj].
          rewrite FT by congruence. apply lz_frame with (nx := w_next s); [exact LZj|]. intros x I. apply FN.
          apply (okchain_in _ _ _ _ OKj) in I. apply bucket_in in I as [I J]. intros [<-|X]; [contradiction|].
          destruct (CH x) as [_ Y]; [apply in_or_app; auto|congruence].
      - apply NoDup_snoc; [apply (l_nda _ _ _ _ _ L)|exact NA].
      - intros x I. apply in_app_or in I as [I|[<-|[]]]; [apply (l_act _ _ _ _ _ L x I)|split; assumption].
      - apply (l_ndd _ _ _ _ _ L).
      - apply (l_dis _ _ _ _ _ L).
      - apply lz_frame with (nx := w_next s); [apply (l_rem _ _ _ _ _ L)|]. intros x I. apply FN.
        intros [<-|X]; [contradiction|]. destruct (CH x) as [Y _]; [apply in_or_app; auto|]. destruct (l_act _ _ _ _ _ L x Y) as [_ N]. contradiction. }
    destruct p as [|y p].
    + cbn [app last] in *. change (0 =? 0) with true. cbn match. eexists. split; [reflexivity|].
      split; [apply GEN|]; try (split; reflexivity).
      * intros x X. cbn [set_table set_next w_next]. apply upd_other. intros ->. apply X. left. reflexivity.
      * intros j J. cbn [set_table set_next table]. apply upd_other. exact J.
      * cbn [app lz set_table set_next table w_next]. rewrite upd_same. split; [reflexivity|]. split; [exact KZ|]. rewrite upd_same.
        apply lz_frame with (nx := w_next s); [exact LZ|]. intros x I. apply upd_other. intros ->. contradiction.
    + set (o := last (y :: p) 0) in *. assert (OI : In o (y :: p)) by (apply last_in'; discriminate).
      assert (OZ : o <> 0) by (apply (lz_nz _ _ _ _ LZ); apply in_or_app; left; exact OI).
      replace (o =? 0) with false by lia. eexists. split; [reflexivity|].
      split; [apply GEN|]; try (split; reflexivity).
      * intros x X. cbn [set_next w_next]. rewrite !upd_other; [reflexivity| |]; intros ->; apply X; [left; reflexivity|right; exact OI].
      * cbn [set_next w_next table].
        assert (NO : o <> k) by (intros E2; apply NP; rewrite <- E2; exact OI).
        apply (lz_relink _ _ _ q).
        -- apply lz_frame with (nx := w_next s); [exact LZ|]. intros x I. apply upd_other. intros ->. contradiction.
        -- destruct OK as [NDC _]. clear -NDC. induction (y :: p) as [|z l IH]; [constructor|]. cbn [app] in NDC. apply NoDup_cons_iff in NDC as [B C].
           constructor; [intros I; apply B, in_or_app; auto|auto].
        -- discriminate.
        -- intros x [<-|I] J; [contradiction|]. destruct OK as [NDC _]. clear -NDC I J. induction (y :: p) as [|z l IH]; [destruct J|].
           cbn [app] in NDC. apply NoDup_cons_iff in NDC as [B C]. destruct J as [->|J]; [apply B, in_or_app; auto|auto].
        -- cbn [lz]. split; [reflexivity|]. split; [exact KZ|]. rewrite upd_same. apply lz_frame with (nx := w_next s).
           ++ assert (H : forall l hd r, lz (w_next s) hd (l ++ r) -> l <> [] -> lz (w_next s) (w_next s (last l 0)) r).
              { clear. induction l as [|z l IH]; intros hd r H N; [congruence|]. cbn [app lz] in H. destruct H as (_ & _ & H).
                destruct l as [|w l]; [exact H|]. change (last (z :: w :: l) 0) with (last (w :: l) 0). apply (IH _ _ H). discriminate. }
              apply (H _ _ _ LZ). discriminate.
           ++ intros x I. apply upd_other. intros ->. contradiction.
Qed.

(** a keyword that isn't active gets another name *)
Lemma name_links s h a d nm k p l n : links s h a d nm -> ~ In k a -> firstn (Z.to_nat l) (mem c p) = n -> l = zlen n -> Forall is_byte n ->
  links (set_name s k p l) h a d (updn nm k n).
Proof.
  intros L NA M LE B. split.
  - intros x X. unfold name_of. cbn [set_name w_name w_len]. unfold updn. destruct (Z.eqb_spec x k) as [->|N].
    + rewrite !upd_same. auto.
    + rewrite !upd_other by exact N. apply (l_nm _ _ _ _ _ L x X).
  - intros i. destruct (l_chain _ _ _ _ _ L i) as (ch & LZ & OK). exists ch. split; [exact LZ|].
    assert (E : bucket (updn nm k n) i a = bucket nm i a).
    { apply filter_ext_in. intros x I. unfold updn. replace (x =? k) with false by (symmetry; apply Z.eqb_neq; intros ->; contradiction). reflexivity. }
    rewrite E. apply (okchain_key (w_len s)); [exact OK|]. intros x I. apply bucket_in in I as [I _]. cbn [set_name w_len]. apply upd_other. intros ->. contradiction.
  - apply (l_nda _ _ _ _ _ L).
  - apply (l_act _ _ _ _ _ L).
  - apply (l_ndd _ _ _ _ _ L).
  - apply (l_dis _ _ _ _ _ L).
  - apply (l_rem _ _ _ _ _ L).
Qed.

(** append to the list of removed words *)
Lemma lz_snoc nx : forall l hd k, lz nx hd l -> ~ In k l -> k <> 0 -> NoDup l -> l <> [] -> nx k = 0 -> lz (upd nx (last l 0) k) hd (l ++ [k]).
Proof.
  intros l hd k L N K ND NE X. apply (lz_relink nx l hd [] k [k]).
  - rewrite app_nil_r. exact L.
  - exact ND.
  - exact NE.
  - intros x [<-|[]]. exact N.
  - cbn [lz]. auto.
Qed.

(** lookup *)
Lemma find_loop_spec s nm n : (forall k, tok_ok k -> name_of c s k = nm k /\ w_len s k = zlen (nm k) /\ Forall is_byte (nm k)) ->
  forall ch fuel hd, lz (w_next s) hd ch -> (length ch < fuel)%nat -> (forall x, In x ch -> tok_ok x) ->
  find_loop fuel c s hd n = Ok (match find (fun k => same_name n (nm k)) ch with Some k => k | None => 0 end).
Proof.
  intros NM. induction ch as [|x ch IH]; intros fuel hd L LT B; (destruct fuel as [|fuel]; [cbn [length] in LT; lia|]); cbn [find_loop find].
  - cbn [lz] in L. subst hd. reflexivity.
  - cbn [lz] in L. destruct L as (-> & NZ & L). replace (x =? 0) with false by lia.
    destruct (NM x (B x (or_introl eq_refl))) as (N1 & N2 & _). rewrite N1, N2, len_same.
    destruct (same_name n (nm x)); [reflexivity|]. apply IH; [exact L|cbn [length] in LT; lia|]. intros y I. apply B. right. exact I.
Qed.
Lemma FindResWord_spec s h a d nm n : links s h a d nm -> Forall is_byte n ->
  FindResWord c s n = Ok (match find (fun k => same_name n (nm k)) a with Some k => k | None => 0 end).
Proof.
  intros L B. unfold FindResWord. destruct (l_chain _ _ _ _ _ L (get_hash n)) as (ch & LZ & OK).
  assert (CH : forall x, In x ch -> In x a) by (intros x I; apply (okchain_in _ _ _ _ OK) in I; apply bucket_in in I; tauto).
  rewrite (find_loop_spec s nm n (l_nm _ _ _ _ _ L) ch (steps c) _ LZ).
  - f_equal. rewrite (okchain_find _ _ _ (fun k => same_name n (nm k)) (zlen n) OK).
    + unfold bucket. rewrite find_filter; [reflexivity|]. intros x I E. destruct (l_act _ _ _ _ _ L x I) as [T _].
      destruct (l_nm _ _ _ _ _ L x T) as (_ & _ & NB). rewrite (same_hash n (nm x) B NB E). apply Z.eqb_refl.
    + intros x I E. apply bucket_in in I as [I _]. destruct (l_act _ _ _ _ _ L x I) as [T _]. destruct (l_nm _ _ _ _ _ L x T) as (_ & LE & _).
      rewrite LE. symmetry. apply same_len. exact E.
  - apply (chain_len _ _ _ _ _ _ _ L OK).
  - intros x I. apply (l_act _ _ _ _ _ L x (CH x I)).
Qed.

(** loops over token lists *)
Lemma add_all_links : forall l s h a d nm, links s h a d nm -> (forall k, In k l -> tok_ok k /\ ~ In k a) -> NoDup l ->
  (forall k, disabled s k = inb k d) ->
  exists s', add_all c l s = Ok s' /\ links s' h (a ++ filter (fun k => negb (inb k d)) l) d nm /\ frd s s'.
Proof.
  induction l as [|k l IH]; intros s h a d nm L T ND D; cbn [add_all filter].
  - exists s. rewrite app_nil_r. split; [reflexivity|]. split; [exact L|apply frd_refl].
  - apply NoDup_cons_iff in ND as [NI ND]. destruct (T k (or_introl eq_refl)) as [K NA]. rewrite D. destruct (inb k d) eqn:E; cbn [negb bindr].
    + apply IH; try assumption. intros x I. apply T. right. exact I.
    + apply inb_false in E. destruct (add_links s h a d nm k L K NA E) as (s1 & E1 & L1 & F1). rewrite E1. cbn [bindr].
      destruct (IH s1 h (a ++ [k]) d nm L1) as (s2 & E2 & L2 & F2).
      * intros x I. destruct (T x (or_intror I)) as [X Y]. split; [exact X|]. intros J. apply in_app_or in J as [J|[->|[]]]; contradiction.
      * exact ND.
      * intros x. rewrite (d_dis _ _ F1). apply D.
      * exists s2. rewrite <- app_assoc in L2. cbn [app] in L2. split; [exact E2|]. split; [exact L2|eapply frd_trans; eassumption].
Qed.
Lemma off_cons k l a : off (k :: l) a = off l (without k a).
Proof.
  unfold off, without. induction a as [|x a IH]; [reflexivity|]. cbn [filter]. change (inb x (k :: l)) with ((x =? k) || inb x l).
  destruct (x =? k); cbn [orb negb filter]; [exact IH|]. destruct (inb x l); cbn [negb]; rewrite IH; reflexivity.
Qed.
Lemma remove_all_links : forall l s h a d nm, links s h a d nm -> (forall k, In k l -> tok_ok k) ->
  (forall k, disabled s k = inb k d) ->
  exists s', remove_all c l s = Ok s' /\ links s' h (off l a) d nm /\ frd s s'.
Proof.
  induction l as [|k l IH]; intros s h a d nm L T D; cbn [remove_all].
  - exists s. split; [reflexivity|]. split; [|apply frd_refl]. replace (off [] a) with a; [exact L|].
    unfold off. cbn. clear. induction a as [|x a IH]; [reflexivity|]. cbn [filter]. f_equal. exact IH.
  - rewrite off_cons. rewrite D. destruct (inb k d) eqn:E; cbn [bindr].
    + apply inb_ok in E. rewrite without_notin by (intros I; apply (l_act _ _ _ _ _ L) in I as [_ I]; contradiction).
      apply IH; try assumption. intros x I. apply T. right. exact I.
    + destruct (remove_links s h a d nm k L (T k (or_introl eq_refl))) as (s1 & E1 & L1 & F1). rewrite E1. cbn [bindr].
      destruct (IH s1 h (without k a) d nm L1) as (s2 & E2 & L2 & F2).
      * intros x I. apply T. right. exact I.
      * intros x. rewrite (d_dis _ _ F1). apply D.
      * exists s2. split; [exact E2|]. split; [exact L2|eapply frd_trans; eassumption].
Qed.
End C.
