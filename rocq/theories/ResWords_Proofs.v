From Verif Require Import Base ResWords_Model ResWords_Spec ResWordsRun_Spec.

(** ** Names and hashes *)
Lemma case_agree a b : tolower a = tolower b <-> fold_case a = fold_case b.
Proof. unfold tolower, fold_case. split; repeat match goal with |- context [if ?c then _ else _] => destruct c eqn:? end; intros; lia. Qed.
Lemma case_agree_list : forall a b, map tolower a = map tolower b <-> map fold_case a = map fold_case b.
Proof.
  induction a as [|x a IH]; intros [|y b]; cbn [map]; try (split; intros; (reflexivity || discriminate)).
  split; intros H; injection H as H1 H2; apply case_agree in H1; apply IH in H2; congruence.
Qed.
Lemma memicmp_same a b : memicmp_eq a b = same_name a b.
Proof.
  unfold memicmp_eq, memcmp_eq, same_name.
  destruct (list_eq_dec _ (map tolower a) (map tolower b)) as [E|N]; destruct (list_eq_dec _ (map fold_case a) (map fold_case b)) as [F|M]; try reflexivity.
  - apply case_agree_list in E. contradiction.
  - apply case_agree_list in F. contradiction.
Qed.
Lemma same_len a b : same_name a b = true -> zlen a = zlen b.
Proof.
  unfold same_name. destruct list_eq_dec as [E|]; [|discriminate]. intros _. apply (f_equal (@length Z)) in E. rewrite !map_length in E. unfold zlen. rewrite E. reflexivity.
Qed.
Lemma len_same a b : (zlen b =? zlen a) && memicmp_eq a b = same_name a b.
Proof.
  rewrite memicmp_same. destruct (same_name a b) eqn:E; [|apply andb_false_r]. rewrite (same_len a b E), Z.eqb_refl. reflexivity.
Qed.
Definition hkey (c : Z) : Z := wrap 64 (Z.lor (if c <? 128 then c else c - 256) 32).
Definition bytes_list : list Z := map Z.of_nat (seq 0 256).
Lemma in_bytes c : is_byte c -> In c bytes_list.
Proof. intros H. unfold is_byte in H. unfold bytes_list. apply in_map_iff. exists (Z.to_nat c). split; [lia|]. apply in_seq. lia. Qed.
Lemma hkey_case a b : is_byte a -> is_byte b -> fold_case a = fold_case b -> hkey a = hkey b.
Proof.
  intros A B. assert (C : forallb (fun c => hkey c =? hkey (fold_case c)) bytes_list = true) by (vm_compute; reflexivity).
  rewrite forallb_forall in C. pose proof (C a (in_bytes a A)). pose proof (C b (in_bytes b B)). intros E. rewrite E in *. lia.
Qed.
Lemma same_hash a b : Forall is_byte a -> Forall is_byte b -> same_name a b = true -> get_hash a = get_hash b.
Proof.
  assert (G : forall u v h, Forall is_byte u -> Forall is_byte v -> map fold_case u = map fold_case v ->
    fold_left hash_step u h = fold_left hash_step v h).
  { induction u as [|x u IH]; intros [|y v] h A B E; cbn [map] in E; try discriminate; [reflexivity|].
    injection E as E1 E2. inversion_clear A. inversion_clear B. cbn [fold_left].
    assert (K : hash_step h x = hash_step h y).
    { unfold hash_step. pose proof (hkey_case x y H H1 E1) as K. unfold hkey in K. rewrite K. reflexivity. }
    rewrite K. apply IH; assumption. }
  intros A B. unfold same_name. destruct list_eq_dec as [E|]; [|discriminate]. intros _. unfold get_hash. rewrite (G a b _ A B E). reflexivity.
Qed.

(** ** Lists *)
Lemma upd_same {A} (f : Z -> A) i v : upd f i v i = v.
Proof. unfold upd. rewrite Z.eqb_refl. reflexivity. Qed.
Lemma upd_other {A} (f : Z -> A) i v j : j <> i -> upd f i v j = f j.
Proof. intros H. unfold upd. replace (j =? i) with false by lia. reflexivity. Qed.
Lemma without_in p l x : In x (without p l) <-> In x l /\ x <> p.
Proof. unfold without. rewrite filter_In. split; intros [A B]; split; try assumption; [destruct (Z.eqb_spec x p); [discriminate|assumption]|replace (x =? p) with false by lia; reflexivity]. Qed.
Lemma without_notin p l : ~ In p l -> without p l = l.
Proof.
  induction l as [|y l IH]; intros NI; [reflexivity|]. unfold without. cbn [filter].
  replace (y =? p) with false by (symmetry; apply Z.eqb_neq; intros ->; apply NI; left; reflexivity).
  cbn [negb]. f_equal. apply IH. intros I. apply NI. right. exact I.
Qed.
Lemma without_app p a b : without p (a ++ b) = without p a ++ without p b.
Proof. apply filter_app. Qed.
Lemma without_mid p a b : ~ In p (a ++ b) -> without p (a ++ p :: b) = a ++ b.
Proof.
  intros N. rewrite without_app. unfold without at 2. cbn [filter]. rewrite Z.eqb_refl. cbn [negb]. fold (without p b).
  rewrite !without_notin; [reflexivity| |]; intros I; apply N, in_or_app; auto.
Qed.
Lemma filter_NoDup {A} (f : A -> bool) l : NoDup l -> NoDup (filter f l).
Proof. induction 1 as [|x l N ND IH]; cbn [filter]; [constructor|]. destruct (f x); [|exact IH]. constructor; [|exact IH]. intros I. apply filter_In in I. tauto. Qed.
Lemma inb_ok x l : inb x l = true <-> In x l.
Proof.
  unfold inb. rewrite existsb_exists. split.
  - intros (y & I & E). apply Z.eqb_eq in E. subst y. exact I.
  - intros I. exists x. split; [exact I|apply Z.eqb_refl].
Qed.
Lemma inb_false x l : inb x l = false <-> ~ In x l.
Proof. rewrite <- inb_ok. destruct (inb x l); split; intros; congruence. Qed.
Lemma NoDup_snoc (l : list Z) p : NoDup l -> ~ In p l -> NoDup (l ++ [p]).
Proof.
  induction 1 as [|x l NI ND IH]; intros H; cbn [app]; [constructor; [intros []|constructor]|].
  constructor; [|apply IH; intros I; apply H; right; exact I].
  intros I. apply in_app_or in I as [I|[<-|[]]]; [contradiction|]. apply H. left. reflexivity.
Qed.
Lemma NoDup_mid (a b : list Z) p : NoDup (a ++ b) -> ~ In p (a ++ b) -> NoDup (a ++ p :: b).
Proof.
  induction a as [|x a IH]; cbn [app]; intros ND N; [constructor; assumption|].
  apply NoDup_cons_iff in ND as [NX ND]. constructor.
  - intros I. apply in_app_or in I as [I|[->|I]]; [apply NX, in_or_app; auto|apply N; left; reflexivity|apply NX, in_or_app; auto].
  - apply IH; [exact ND|]. intros I. apply N. right. exact I.
Qed.
Lemma filter_comm {A} (f g : A -> bool) l : filter f (filter g l) = filter g (filter f l).
Proof. induction l as [|x l IH]; [reflexivity|]. cbn [filter]. destruct (g x) eqn:G; destruct (f x) eqn:F; cbn [filter]; rewrite ?G, ?F, IH; reflexivity. Qed.
Lemma find_filter {A} (f g : A -> bool) l : (forall x, In x l -> f x = true -> g x = true) -> find f (filter g l) = find f l.
Proof.
  induction l as [|x l IH]; intros H; [reflexivity|]. cbn [filter find]. destruct (f x) eqn:F.
  - rewrite (H x) by (auto; left; reflexivity). cbn [find]. rewrite F. reflexivity.
  - destruct (g x); cbn [find]; rewrite ?F; apply IH; intros y I; apply H; right; exact I.
Qed.
Lemma bounded_length : forall l n, NoDup l -> (forall x, In x l -> 1 <= x <= Z.of_nat n) -> (length l <= n)%nat.
Proof.
  intros l n ND B. assert (I : incl l (tokens n)).
  { intros x I. specialize (B x I). unfold tokens. apply in_map_iff. exists (Z.to_nat x). split; [lia|]. apply in_seq. lia. }
  pose proof (NoDup_incl_length ND I) as L. unfold tokens in L. rewrite map_length, seq_length in L. exact L.
Qed.

(** ** Chains *)
Fixpoint lz (nx : Z -> Z) (hd : Z) (l : list Z) : Prop :=
  match l with
  | [] => hd = 0
  | x :: l => hd = x /\ x <> 0 /\ lz nx (nx x) l
  end.
Lemma lz_frame nx nx' : forall l hd, lz nx hd l -> (forall x, In x l -> nx' x = nx x) -> lz nx' hd l.
Proof.
  induction l as [|x l IH]; intros hd; cbn [lz]; [auto|]. intros (-> & N & H) E. split; [reflexivity|]. split; [exact N|].
  rewrite E by (left; reflexivity). apply IH; [exact H|]. intros y I. apply E. right. exact I.
Qed.
Lemma lz_tail nx : forall pre hd x post, lz nx hd (pre ++ x :: post) -> lz nx (nx x) post /\ x <> 0.
Proof.
  induction pre as [|y pre IH]; intros hd x post H; cbn [app lz] in H; [tauto|]. apply (IH _ _ _ (proj2 (proj2 H))).
Qed.
Lemma lz_nz nx : forall l hd x, lz nx hd l -> In x l -> x <> 0.
Proof. induction l as [|y l IH]; intros hd x H I; [destruct I|]. destruct H as (_ & N & H). destruct I as [<-|I]; [exact N|eapply IH; eassumption]. Qed.
Lemma last_app_cons (pre : list Z) x d : last (pre ++ [x]) d = x.
Proof. apply last_last. Qed.
(** new link behind the last element of [pre] *)
Lemma lz_relink nx : forall pre hd suf v suf', lz nx hd (pre ++ suf) -> NoDup pre -> pre <> [] -> (forall x, In x suf' -> ~ In x pre) ->
  lz nx v suf' -> lz (upd nx (last pre 0) v) hd (pre ++ suf').
Proof.
  induction pre as [|x pre IH]; intros hd suf v suf' H ND NE DJ L; [congruence|]. cbn [app lz] in H. destruct H as (-> & NZ & H).
  apply NoDup_cons_iff in ND as [NI ND]. destruct pre as [|y pre].
  - cbn [app last lz]. split; [reflexivity|]. split; [exact NZ|]. rewrite upd_same. apply lz_frame with (nx := nx); [exact L|].
    intros z I. apply upd_other. intros ->. apply (DJ x I). left. reflexivity.
  - cbn [app]. cbn [lz]. split; [reflexivity|]. split; [exact NZ|].
    change (last (x :: y :: pre) 0) with (last (y :: pre) 0).
    assert (N : x <> last (y :: pre) 0).
    { intros E. apply NI. rewrite E. assert (G : forall l : list Z, l <> [] -> In (last l 0) l).
      { clear. induction l as [|a l IH]; [congruence|]. intros _. destruct l as [|b l]; [left; reflexivity|]. right. apply IH. discriminate. }
      apply G. discriminate. }
    rewrite upd_other by exact N. apply (IH _ suf); try assumption; [discriminate|]. intros z I J. apply (DJ z I). right. exact J.
Qed.

(** changes of the links only *)
Record fr (P : Z -> Prop) (i : Z) (s s' : rw) : Prop := {
  f_name : w_name s' = w_name s; f_len : w_len s' = w_len s; f_dis : disabled s' = disabled s; f_ren : renamed s' = renamed s;
  f_head : Head s' = Head s; f_tail : Tail s' = Tail s; f_mode : b64bit s' = b64bit s; f_sys : syscallname s' = syscallname s;
  f_next : forall x, ~ P x -> w_next s' x = w_next s x; f_table : forall j, j <> i -> table s' j = table s j }.
Lemma fr_refl P i s : fr P i s s.
Proof. split; reflexivity. Qed.

Lemma remove_loop_spec s i token : forall suf pre fuel curr, lz (w_next s) (table s i) (pre ++ suf) -> NoDup (pre ++ suf) ->
  (length suf < fuel)%nat -> lz (w_next s) curr suf ->
  exists s', remove_loop fuel s i token curr (last pre 0) = Ok s' /\
    fr (fun x => In x (pre ++ suf) /\ x <> token) i s s' /\
    (~ In token pre -> lz (w_next s') (table s' i) (without token (pre ++ suf))).
Proof.
  induction suf as [|x suf IH]; intros pre fuel curr L ND LT LC; (destruct fuel as [|fuel]; [cbn [length] in LT; lia|]); cbn [remove_loop].
  - cbn [lz] in LC. subst curr. cbn [Z.eqb]. exists s. split; [reflexivity|]. split; [apply fr_refl|]. intros N. rewrite app_nil_r in *.
    rewrite without_notin by exact N. exact L.
  - cbn [lz] in LC. destruct LC as (-> & NZ & LC). replace (x =? 0) with false by lia. destruct (Z.eqb_spec x token) as [->|NE].
    + pose proof (NoDup_remove_2 _ _ _ ND) as NI.
      destruct pre as [|y pre].
      * cbn [last]. change (negb (0 =? 0)) with false. cbn match. eexists. split; [reflexivity|]. split; [split; try reflexivity|].
        -- intros j J. cbn [set_table table]. apply upd_other. exact J.
        -- intros _. rewrite (without_mid token [] suf NI). cbn [app set_table table w_next]. rewrite upd_same. exact LC.
      * assert (LN : last (y :: pre) 0 <> 0).
        { apply (lz_nz _ _ _ _ L). apply in_or_app. left. clear. revert y. induction pre as [|z pre IH]; intros y; [left; reflexivity|]. right. apply IH. }
        replace (last (y :: pre) 0 =? 0) with false by lia. cbn [negb]. cbn match.
        eexists. split; [reflexivity|]. split; [split; try reflexivity|].
        -- intros z Z1. cbn [set_next w_next]. apply upd_other. intros ->. apply Z1. split.
           ++ apply in_or_app. left. clear. revert y. induction pre as [|z pre IH]; intros y; [left; reflexivity|]. right. apply IH.
           ++ intros E. apply NI. rewrite <- E. apply in_or_app. left. clear. revert y. induction pre as [|z pre IH]; intros y; [left; reflexivity|]. right. apply IH.
        -- intros _. rewrite without_mid by exact NI. cbn [set_next w_next table].
           apply lz_relink with (suf := token :: suf); [exact L| |discriminate| |exact LC].
           ++ clear -ND. induction (y :: pre) as [|a l IH]; [constructor|]. cbn [app] in ND. apply NoDup_cons_iff in ND as [A B]. constructor; [intros I; apply A, in_or_app; auto|auto].
           ++ intros z I J. clear -ND I J. induction (y :: pre) as [|a l IH]; [destruct J|]. cbn [app] in ND. apply NoDup_cons_iff in ND as [A B].
              destruct J as [->|J]; [apply A, in_or_app; right; right; exact I|auto].
    + specialize (IH (pre ++ [x]) fuel (w_next s x)). rewrite <- app_assoc in IH. cbn [app] in IH. rewrite last_last in IH.
      destruct IH as (s' & E & F & G); [exact L|exact ND|cbn [length] in LT; lia|exact LC|].
      exists s'. split; [exact E|]. split; [exact F|]. intros N. apply G. intros I. apply in_app_or in I as [I|[I|[]]]; [contradiction|congruence].
Qed.

Fixpoint sorted (key : Z -> Z) (l : list Z) : Prop :=
  match l with [] => True | x :: l => (forall y, In y l -> key x <= key y) /\ sorted key l end.

Lemma add_loop_spec s token : forall suf pre fuel curr, lz (w_next s) curr suf -> (length suf < fuel)%nat -> sorted (w_len s) suf ->
  Forall (fun x => w_len s x <= w_len s token) pre ->
  exists p q, suf = p ++ q /\ add_loop fuel s token curr (last pre 0) = Ok (last (pre ++ p) 0) /\
    Forall (fun x => w_len s x <= w_len s token) (pre ++ p) /\ Forall (fun x => w_len s token < w_len s x) q.
Proof.
  induction suf as [|x suf IH]; intros pre fuel curr LC LT SO PR; (destruct fuel as [|fuel]; [cbn [length] in LT; lia|]); cbn [add_loop].
  - cbn [lz] in LC. subst curr. exists [], []. cbn [app negb andb Z.eqb]. rewrite app_nil_r. auto.
  - cbn [lz] in LC. destruct LC as (-> & NZ & LC). replace (x =? 0) with false by lia. cbn [negb andb].
    cbn [sorted] in SO. destruct SO as [S1 S2]. destruct (Z.leb_spec (w_len s x) (w_len s token)) as [LE|GT].
    + destruct (IH (pre ++ [x]) fuel (w_next s x) LC) as (p & q & E & A & B & C); [cbn [length] in LT; lia|exact S2|apply Forall_app; auto|].
      rewrite last_last in A. exists (x :: p), q. rewrite <- app_assoc in A, B. cbn [app] in A, B. split; [rewrite E; reflexivity|auto].
    + exists [], (x :: suf). rewrite app_nil_r. split; [reflexivity|]. split; [reflexivity|]. split; [exact PR|].
      constructor; [exact GT|]. apply Forall_forall. intros y I. specialize (S1 y I). lia.
Qed.

(** ** A chain represents part of a list, sorted by length *)
Definition okchain (key : Z -> Z) (l ch : list Z) : Prop :=
  NoDup ch /\ sorted key ch /\ forall n, filter (fun x => key x =? n) ch = filter (fun x => key x =? n) l.
Lemma okchain_in key l ch x : okchain key l ch -> In x ch <-> In x l.
Proof.
  intros (_ & _ & F). specialize (F (key x)).
  assert (H : forall m, In x m <-> In x (filter (fun y => key y =? key x) m)).
  { intros m. rewrite filter_In. rewrite Z.eqb_refl. tauto. }
  rewrite (H ch), (H l), F. tauto.
Qed.
Lemma sorted_app key a b : sorted key (a ++ b) <-> sorted key a /\ sorted key b /\ forall x y, In x a -> In y b -> key x <= key y.
Proof.
  induction a as [|x a IH]; cbn [app sorted]; [split; [intros H; split; [exact I|split; [exact H|intros x y []]]|tauto]|].
  rewrite IH. split.
  - intros (A & B & C & D). split; [split; [intros y I; apply A, in_or_app; auto|exact B]|]. split; [exact C|].
    intros u v [<-|I] J; [apply A, in_or_app; auto|auto].
  - intros ((A & B) & C & D). split; [|split; [exact B|split; [exact C|intros u v I J; apply D; [right; exact I|exact J]]]].
    intros y I. apply in_app_or in I as [I|I]; [auto|apply D; [left; reflexivity|exact I]].
Qed.
Lemma okchain_remove key l ch p : okchain key l ch -> okchain key (without p l) (without p ch).
Proof.
  intros (A & B & C). split; [apply filter_NoDup; exact A|]. split.
  - clear A C. induction ch as [|x ch IH]; [exact I|]. cbn [sorted] in B. destruct B as [B1 B2]. unfold without. cbn [filter].
    destruct (x =? p); cbn [negb]; [apply IH; exact B2|]. cbn [sorted]. split; [|apply IH; exact B2].
    intros y I. apply B1. apply filter_In in I. tauto.
  - intros n. unfold without. rewrite filter_comm, C, filter_comm. reflexivity.
Qed.
Lemma okchain_insert key l p q t : okchain key l (p ++ q) -> ~ In t (p ++ q) ->
  Forall (fun x => key x <= key t) p -> Forall (fun x => key t < key x) q -> okchain key (l ++ [t]) (p ++ t :: q).
Proof.
  intros (A & B & C) N P Q. split; [apply NoDup_mid; assumption|]. rewrite Forall_forall in P, Q. apply sorted_app in B as (B1 & B2 & B3). split.
  - apply sorted_app. split; [exact B1|]. split.
    + cbn [sorted]. split; [intros y I; specialize (Q y I); lia|exact B2].
    + intros x y I [<-|J]; [apply P; exact I|apply B3; assumption].
  - intros n. specialize (C n). rewrite !filter_app in *. cbn [filter]. rewrite <- C, <- app_assoc. f_equal.
    destruct (Z.eqb_spec (key t) n) as [<-|NE].
    + assert (E : filter (fun x => key x =? key t) q = []).
      { clear -Q. induction q as [|x q IH]; [reflexivity|]. cbn [filter]. pose proof (Q x (or_introl eq_refl)). replace (key x =? key t) with false by lia.
        apply IH. intros y I. apply Q. right. exact I. }
      rewrite E. reflexivity.
    + rewrite app_nil_r. reflexivity.
Qed.
Lemma okchain_find key l ch (f : Z -> bool) k : okchain key l ch -> (forall x, In x l -> f x = true -> key x = k) -> find f ch = find f l.
Proof.
  intros O H. rewrite <- (find_filter f (fun x => key x =? k) l) by (intros x I F; rewrite (H x I F); apply Z.eqb_refl).
  destruct O as (A & B & C) eqn:EO. rewrite <- C. symmetry. apply find_filter. intros x I F.
  rewrite (H x); [apply Z.eqb_refl| |exact F]. apply (okchain_in key l ch x O). exact I.
Qed.
Lemma okchain_key key key' l ch : okchain key l ch -> (forall x, In x l -> key' x = key x) -> okchain key' l ch.
Proof.
  intros O H. pose proof (fun x => proj1 (okchain_in key l ch x O)) as IN. destruct O as (A & B & C). split; [exact A|]. split.
  - assert (H' : forall x, In x ch -> key' x = key x) by (intros x I; apply H, IN, I). clear -B H'.
    induction ch as [|x ch IH]; [exact I|]. cbn [sorted] in *. destruct B as [B1 B2]. split.
    + intros y I. rewrite !H' by (auto; [right; exact I] || (left; reflexivity)). apply B1. exact I.
    + apply IH; [exact B2|]. intros y I. apply H'. right. exact I.
  - intros n. rewrite (filter_ext_in (fun x => key' x =? n) (fun x => key x =? n) ch) by (intros x I; rewrite H by (apply IN; exact I); reflexivity).
    rewrite (filter_ext_in (fun x => key' x =? n) (fun x => key x =? n) l) by (intros x I; rewrite H by exact I; reflexivity). apply C.
Qed.
