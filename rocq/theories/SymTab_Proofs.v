From Verif Require Import Base SymTab_Model SymTab_Spec.

(** ** Names and hashes *)
Lemma case_agree a b : tolower a = tolower b <-> fold_case a = fold_case b.
Proof. unfold tolower, fold_case. split; repeat match goal with |- context [if ?c then _ else _] => destruct c eqn:? end; intros; lia. Qed.
Lemma case_agree_list : forall a b, map tolower a = map tolower b <-> map fold_case a = map fold_case b.
Proof.
  induction a as [|x a IH]; intros [|y b]; cbn [map]; try (split; intros; (reflexivity || discriminate)).
  split; intros H; injection H as H1 H2; apply case_agree in H1; apply IH in H2; congruence.
Qed.
Lemma symcmp_same c a b : Nat.eqb (length a) (length b) && SYMCMP c a b = same c a b.
Proof.
  unfold SYMCMP, same, beq. destruct c.
  - destruct (list_eq_dec _ a b) as [->|]; [rewrite Nat.eqb_refl; reflexivity|apply andb_false_r].
  - destruct (list_eq_dec _ (map tolower a) (map tolower b)) as [E|N]; destruct (list_eq_dec _ (map fold_case a) (map fold_case b)) as [F|M].
    + apply (f_equal (@length Z)) in F. rewrite !map_length in F. rewrite F, Nat.eqb_refl. reflexivity.
    + apply case_agree_list in E. contradiction.
    + apply case_agree_list in F. contradiction.
    + apply andb_false_r.
Qed.

Definition hkey (c : Z) : Z := wrap 64 (Z.lor (if c <? 128 then c else c - 256) 32).
Definition bytes_list : list Z := map Z.of_nat (seq 0 256).
Lemma in_bytes c : is_byte c -> In c bytes_list.
Proof. intros H. unfold is_byte in H. unfold bytes_list. apply in_map_iff. exists (Z.to_nat c). split; [lia|]. apply in_seq. lia. Qed.
Lemma hkey_case a b : is_byte a -> is_byte b -> fold_case a = fold_case b -> hkey a = hkey b.
Proof.
  intros A B. assert (C : forallb (fun c => hkey c =? hkey (fold_case c)) bytes_list = true) by (vm_compute; reflexivity).
  rewrite forallb_forall in C. pose proof (C a (in_bytes a A)). pose proof (C b (in_bytes b B)). intros E. rewrite E in *. lia.
Qed.
Lemma hash_case : forall a b, Forall is_byte a -> Forall is_byte b -> map fold_case a = map fold_case b -> hashpjw a = hashpjw b.
Proof.
  assert (G : forall a b h, Forall is_byte a -> Forall is_byte b -> map fold_case a = map fold_case b ->
    fold_left hash_step a h = fold_left hash_step b h).
  { induction a as [|x a IH]; intros [|y b] h A B E; cbn [map] in E; try discriminate; [reflexivity|].
    injection E as E1 E2. inversion_clear A. inversion_clear B. cbn [fold_left].
    assert (K : hash_step h x = hash_step h y).
    { unfold hash_step. pose proof (hkey_case x y H H1 E1) as K. unfold hkey in K. rewrite K. reflexivity. }
    rewrite K. apply IH; assumption. }
  intros a b A B E. unfold hashpjw. rewrite (G a b _ A B E). reflexivity.
Qed.
Lemma same_hash c a b : Forall is_byte a -> Forall is_byte b -> same c a b = true -> hashpjw a = hashpjw b.
Proof.
  unfold same. intros A B. destruct c.
  - destruct (list_eq_dec _ a b) as [->|]; [reflexivity|discriminate].
  - destruct (list_eq_dec _ _ _) as [E|]; [intros _; apply hash_case; assumption|discriminate].
Qed.

(** ** Chains *)
Fixpoint lseg (nx : Z -> option Z) (hd : option Z) (l : list Z) : Prop :=
  match l with
  | [] => hd = None
  | x :: l => hd = Some x /\ lseg nx (nx x) l
  end.
Lemma lseg_frame nx nx' : forall l hd, lseg nx hd l -> (forall x, In x l -> nx' x = nx x) -> lseg nx' hd l.
Proof.
  induction l as [|x l IH]; intros hd; cbn [lseg]; [auto|]. intros [-> H] E. split; [reflexivity|].
  rewrite E by (left; reflexivity). apply IH; [exact H|]. intros y I. apply E. right. exact I.
Qed.
Lemma lseg_head nx l hd : lseg nx hd l -> hd = hd_error l.
Proof. destruct l; cbn; [auto|]. intros [-> _]. reflexivity. Qed.
Definition endp (start : place) (pre : list Z) : place :=
  match pre with [] => start | x :: l => Next (last (x :: l) 0) end.
Lemma endp_cons start x l : endp start (x :: l) = endp (Next x) l.
Proof. destruct l as [|y l]; [reflexivity|]. cbn [endp]. f_equal. Qed.

Definition nx (s : tabs) (p : Z) := nextitem (heap s p).
Definition nm (s : tabs) (p : Z) := s_name (heap s p).

Lemma chain_find_spec s n : forall l start fuel hd, deref s start = Ok hd -> lseg (nx s) hd l -> (length l < fuel)%nat ->
  exists pre suf, l = pre ++ suf /\ Forall (fun p => same (case_sensitive s) n (nm s p) = false) pre /\
    chain_find fuel s start n = Ok (endp start pre, hd_error suf) /\
    match suf with p :: _ => same (case_sensitive s) n (nm s p) = true | [] => True end.
Proof.
  induction l as [|x l IH]; intros start fuel hd D L F; destruct fuel as [|fuel]; try lia; cbn [chain_find lseg] in *; rewrite D; cbn [bindr].
  - subst hd. exists [], []. repeat split; constructor.
  - destruct L as [-> L]. rewrite symcmp_same. fold (nm s x). destruct (same (case_sensitive s) n (nm s x)) eqn:E.
    + exists [], (x :: l). repeat split; [constructor|assumption].
    + cbn [length] in F. destruct (IH (Next x) fuel (nx s x)) as (pre & suf & A & B & C & G); [reflexivity|exact L|lia|].
      exists (x :: pre), suf. split; [cbn; congruence|]. split; [constructor; assumption|]. split; [|exact G].
      rewrite C, endp_cons. reflexivity.
Qed.

Lemma find_app_none {A} (f : A -> bool) a b : Forall (fun x => f x = false) a -> find f (a ++ b) = find f b.
Proof. induction 1 as [|x l H]; [reflexivity|]. cbn [app find]. rewrite H. assumption. Qed.
Lemma find_filter {A} (f g : A -> bool) l : (forall x, In x l -> f x = true -> g x = true) -> find f (filter g l) = find f l.
Proof.
  induction l as [|x l IH]; intros H; [reflexivity|]. cbn [filter find].
  assert (IH' : find f (filter g l) = find f l) by (apply IH; intros y I; apply H; right; exact I).
  destruct (g x) eqn:G; cbn [find].
  - destruct (f x); [reflexivity|exact IH'].
  - destruct (f x) eqn:F; [|exact IH']. rewrite (H x (or_introl eq_refl) F) in G. discriminate.
Qed.
Lemma bounded_length : forall l n, 0 <= n -> NoDup l -> (forall x, In x l -> 0 <= x < n) -> (length l <= Z.to_nat n)%nat.
Proof.
  intros l n N ND B. rewrite <- (seq_length (Z.to_nat n) 0), <- (map_length Z.of_nat (seq 0 (Z.to_nat n))).
  apply NoDup_incl_length; [exact ND|]. intros x I. apply in_map_iff. exists (Z.to_nat x). pose proof (B x I).
  split; [lia|]. apply in_seq. lia.
Qed.

(** ** Writing a link *)
(** everything but the links of [P], and the tables *)
Record kept (P : Z -> Prop) (s s' : tabs) : Prop := {
  k_brk : brk s' = brk s; k_lab : labellist s' = labellist s; k_cur : CurrProc s' = CurrProc s;
  k_stack : ProcStack s' = ProcStack s; k_case : case_sensitive s' = case_sensitive s;
  k_lsym : lsym s' = lsym s; k_gsym : gsym s' = gsym s; k_count : SymCount s' = SymCount s;
  k_nm : forall x, nm s' x = nm s x; k_state : forall x, s_state (heap s' x) = s_state (heap s x);
  k_scoped : forall x, scoped (heap s' x) = scoped (heap s x); k_ll : forall x, nextll (heap s' x) = nextll (heap s x);
  k_nx : forall x, ~ P x -> nx s' x = nx s x }.

Lemma upd_same {A} (f : Z -> A) i v : upd f i v i = v.
Proof. unfold upd. rewrite Z.eqb_refl. reflexivity. Qed.
Lemma upd_other {A} (f : Z -> A) i v j : j <> i -> upd f i v j = f j.
Proof. unfold upd. intros. replace (j =? i) with false by lia. reflexivity. Qed.
Lemma lseg_link f : forall pre hd suf v suf', lseg f hd (pre ++ suf) -> NoDup pre -> pre <> [] ->
  (forall x, In x pre -> ~ In x suf') -> lseg f v suf' ->
  lseg (upd f (last pre 0) v) hd (pre ++ suf').
Proof.
  induction pre as [|x pre IH]; intros hd suf v suf' L ND NE D V; [congruence|].
  apply NoDup_cons_iff in ND as [NI ND]. cbn [app lseg] in *. destruct L as [-> L]. split; [reflexivity|].
  destruct pre as [|y pre].
  - cbn [last app]. rewrite upd_same. apply lseg_frame with (nx := f); [exact V|].
    intros z I. unfold upd. destruct (Z.eqb_spec z x) as [->|]; [|reflexivity]. destruct (D x (or_introl eq_refl) I).
  - change (last (x :: y :: pre) 0) with (last (y :: pre) 0).
    assert (LI : forall d l, In (last (y :: l) d) (y :: l)).
    { clear. intros d l. revert y. induction l as [|z l IHl]; intros y; [left; reflexivity|]. right. apply (IHl z). }
    assert (E : upd f (last (y :: pre) 0) v x = f x).
    { unfold upd. destruct (Z.eqb_spec x (last (y :: pre) 0)) as [E|]; [|reflexivity]. exfalso. apply NI. rewrite E. apply LI. }
    rewrite E. apply IH with (suf := suf); try assumption; [discriminate|]. intros z I. apply D. right. exact I.
Qed.
Lemma last_in : forall (l : list Z) d, l <> [] -> In (last l d) l.
Proof. induction l as [|x [|y l] IH]; intros d N; [congruence|left; reflexivity|]. right. apply IH. discriminate. Qed.

Lemma store_heap s pre v : pre <> [] -> exists s', store s (Next (last pre 0)) v = Ok s' /\ kept (fun x => In x pre) s s' /\
  gsym_table s' = gsym_table s /\ lsym_table s' = lsym_table s /\ (forall x, nx s' x = upd (nx s) (last pre 0) v x).
Proof.
  intros N. eexists. split; [reflexivity|]. split; [|split; [reflexivity|split; [reflexivity|]]].
  - split; try reflexivity; intros x; cbn [set_heap heap]; unfold nm, nx, upd; cbn [set_heap heap];
      destruct (Z.eqb_spec x (last pre 0)) as [->|]; try reflexivity.
    intros H. destruct H. apply last_in. exact N.
  - intros x. unfold nx, upd. cbn [set_heap heap]. destruct (x =? last pre 0); reflexivity.
Qed.

Lemma endp_ne start pre : pre <> [] -> endp start pre = Next (last pre 0).
Proof. destruct pre; [congruence|reflexivity]. Qed.

Lemma store_G s i pre suf v suf' : lseg (nx s) (gsym_table s i) (pre ++ suf) -> NoDup pre ->
  (forall x, In x pre -> ~ In x suf') -> lseg (nx s) v suf' ->
  exists s', store s (endp (GHead i) pre) v = Ok s' /\ kept (fun x => In x pre) s s' /\
    lsym_table s' = lsym_table s /\ (forall j, j <> i -> gsym_table s' j = gsym_table s j) /\
    lseg (nx s') (gsym_table s' i) (pre ++ suf').
Proof.
  intros L ND D V. destruct (list_eq_dec Z.eq_dec pre []) as [->|NE].
  - eexists. split; [reflexivity|]. split; [split; reflexivity|]. split; [reflexivity|]. split.
    + intros j N. cbn [set_gtab gsym_table]. unfold upd. replace (j =? i) with false by lia. reflexivity.
    + cbn [set_gtab gsym_table app]. unfold upd. rewrite Z.eqb_refl. exact V.
  - rewrite endp_ne by exact NE. destruct (store_heap s pre v NE) as (s' & E & K & G1 & L1 & X).
    exists s'. split; [exact E|]. split; [exact K|]. split; [exact L1|]. split; [intros; rewrite G1; reflexivity|].
    rewrite G1. apply lseg_frame with (nx := upd (nx s) (last pre 0) v); [|intros; apply X].
    apply lseg_link with (suf := suf); assumption.
Qed.
Lemma store_L s i pre suf v suf' : lseg (nx s) (lsym_table s i) (pre ++ suf) -> NoDup pre ->
  (forall x, In x pre -> ~ In x suf') -> lseg (nx s) v suf' ->
  exists s', store s (endp (LHead i) pre) v = Ok s' /\ kept (fun x => In x pre) s s' /\
    gsym_table s' = gsym_table s /\ (forall j, j <> i -> lsym_table s' j = lsym_table s j) /\
    lseg (nx s') (lsym_table s' i) (pre ++ suf').
Proof.
  intros L ND D V. destruct (list_eq_dec Z.eq_dec pre []) as [->|NE].
  - eexists. split; [reflexivity|]. split; [split; reflexivity|]. split; [reflexivity|]. split.
    + intros j N. cbn [set_ltab lsym_table]. unfold upd. replace (j =? i) with false by lia. reflexivity.
    + cbn [set_ltab lsym_table app]. unfold upd. rewrite Z.eqb_refl. exact V.
  - rewrite endp_ne by exact NE. destruct (store_heap s pre v NE) as (s' & E & K & G1 & L1 & X).
    exists s'. split; [exact E|]. split; [exact K|]. split; [exact G1|]. split; [intros; rewrite L1; reflexivity|].
    rewrite L1. apply lseg_frame with (nx := upd (nx s) (last pre 0) v); [|intros; apply X].
    apply lseg_link with (suf := suf); assumption.
Qed.

(** ** The relation between the tables and the scopes *)
Definition ghash (n : list Z) := hashpjw n mod GHASH_TABLE_SIZE.
Definition lhash (n : list Z) := hashpjw n mod LHASH_TABLE_SIZE.
Definition bG (t : spec) (i : Z) (l : list Z) := filter (fun p => ghash (names t p) =? i) l.
Definition bL (t : spec) (i : Z) (l : list Z) := filter (fun p => lhash (names t p) =? i) l.
Definition lbuckets : list Z := map Z.of_nat (seq 0 128).
Definition heads (t : spec) (l : list Z) : list Z :=
  flat_map (fun i => match hd_error (bL t i l) with Some x => [x] | None => [] end) lbuckets.

Inductive owner := OG | OD | OP (q : Z).
Definition valid (t : spec) (q : Z) : Prop := ~ (cur t = Some q /\ dirty t = true).

Record rep (own : Z -> owner) (s : tabs) (t : spec) : Prop := {
  r_brk : brk s = next t; r_next : 0 <= next t;
  r_nm : forall p, 0 <= p < next t -> nm s p = names t p;
  r_bytes : forall p, 0 <= p < next t -> Forall is_byte (names t p);
  r_state : forall p, 0 <= p < next t -> (s_state (heap s p) =? SYM_UNDEFINED) = undef t p;
  r_cur : CurrProc s = cur t; r_stack : ProcStack s = stack t; r_case : case_sensitive s = cs t;
  r_count : SymCount s = zlen (glob t);
  r_G : forall i, lseg (nx s) (gsym_table s i) (bG t i (glob t));
  r_L : cur t <> None -> forall i, lseg (nx s) (lsym_table s i) (bL t i (loc t));
  r_ownG : forall x, In x (glob t) -> own x = OG /\ 0 <= x < next t /\ scoped (heap s x) = false;
  r_ownL : forall x c, cur t = Some c -> In x (loc t) -> own x = OP c /\ 0 <= x < next t /\ (scoped (heap s x) = true \/ undef t x = false);
  r_ownD : forall x, In x (det t) -> own x = OD /\ 0 <= x < next t /\ scoped (heap s x) = false;
  r_ndG : NoDup (glob t); r_ndL : NoDup (loc t);
  r_nds : NoDup (match cur t with Some c => c :: stack t | None => stack t end);
  r_stk : cur t = None -> stack t = [];
  r_clean : forall q, cur t = Some q -> dirty t = false -> saved t q = loc t;
  r_saved : forall q, valid t q ->
     NoDup (saved t q) /\
     (forall x, In x (saved t q) -> own x = OP q /\ 0 <= x < next t /\ (scoped (heap s x) = true \/ undef t x = false)) /\
     lseg (fun x => nextll (heap s x)) (labellist s q) (heads t (saved t q)) /\
     forall i, lseg (nx s) (hd_error (bL t i (saved t q))) (bL t i (saved t q)) }.

Lemma filter_NoDup {A} (f : A -> bool) l : NoDup l -> NoDup (filter f l).
Proof.
  induction 1 as [|x l NI ND IH]; [constructor|]. cbn [filter]. destruct (f x); [|exact IH].
  constructor; [|exact IH]. intros I. apply filter_In in I. tauto.
Qed.

(** ** SymFind *)
Lemma find_in_bucket (t : spec) n l (h : list Z -> Z) :
  (forall a b, hashpjw a = hashpjw b -> h a = h b) ->
  Forall is_byte n -> (forall p, In p l -> Forall is_byte (names t p)) ->
  find (is t n) (filter (fun p => h (names t p) =? h n) l) = find (is t n) l.
Proof.
  intros Hh B L. apply find_filter. intros x I E. unfold is in E.
  apply same_hash in E; [|assumption|apply L; exact I]. apply Z.eqb_eq. apply Hh. congruence.
Qed.

Lemma find_pre (t : spec) n pre suf : Forall (fun p => same (cs t) n (names t p) = false) pre ->
  match suf with p :: _ => same (cs t) n (names t p) = true | [] => True end ->
  find (is t n) (pre ++ suf) = hd_error suf.
Proof.
  intros A B. rewrite find_app_none by exact A. destruct suf as [|p suf]; [reflexivity|]. cbn [find hd_error]. unfold is. rewrite B. reflexivity.
Qed.

Lemma names_eq own s t n l : rep own s t -> (forall x, In x l -> 0 <= x < next t) ->
  forall b, Forall (fun p => same (case_sensitive s) n (nm s p) = b) l <-> Forall (fun p => same (cs t) n (names t p) = b) l.
Proof.
  intros R B b. rewrite !Forall_forall. split; intros H x I; specialize (H x I);
    [rewrite <- (r_nm _ _ _ R), <- (r_case _ _ _ R) by auto|rewrite (r_nm _ _ _ R), (r_case _ _ _ R) by auto]; exact H.
Qed.

Lemma find_glob own s t n : rep own s t -> Forall is_byte n ->
  exists pre suf, bG t (ghash n) (glob t) = pre ++ suf /\
    chain_find (S (Z.to_nat (brk s))) s (GHead (hashpjw n mod GHASH_TABLE_SIZE)) n = Ok (endp (GHead (ghash n)) pre, find (is t n) (glob t)) /\
    find (is t n) (glob t) = hd_error suf.
Proof.
  intros R B. set (l := bG t (ghash n) (glob t)).
  assert (IN : forall x, In x l -> 0 <= x < next t) by (intros x I; apply filter_In in I as [I _]; apply (r_ownG _ _ _ R x I)).
  destruct (chain_find_spec s n l (GHead (ghash n)) (S (Z.to_nat (brk s))) (gsym_table s (ghash n))) as (pre & suf & E & P & C & M).
  - reflexivity.
  - apply (r_G _ _ _ R).
  - pose proof (bounded_length l (next t) (r_next _ _ _ R) (filter_NoDup _ _ (r_ndG _ _ _ R)) IN). rewrite (r_brk _ _ _ R). lia.
  - assert (F : find (is t n) (glob t) = hd_error suf).
    { rewrite <- (find_in_bucket t n (glob t) ghash).
      - fold (bG t (ghash n) (glob t)). fold l. rewrite E. apply find_pre.
        + apply (names_eq own s t n pre R); [|exact P]. intros x I. apply IN. rewrite E. apply in_or_app. auto.
        + destruct suf as [|p suf]; [exact I|].
          rewrite <- (r_nm _ _ _ R), <- (r_case _ _ _ R); [exact M|]. apply IN. rewrite E. apply in_or_app. right. left. reflexivity.
      - intros a b X. unfold ghash. rewrite X. reflexivity.
      - exact B.
      - intros p I. apply (r_bytes _ _ _ R). apply (r_ownG _ _ _ R p I). }
    exists pre, suf. split; [exact E|]. split; [|exact F]. rewrite F. exact C.
Qed.
Lemma find_local own s t n c : rep own s t -> Forall is_byte n -> cur t = Some c ->
  exists pre suf, bL t (lhash n) (loc t) = pre ++ suf /\
    chain_find (S (Z.to_nat (brk s))) s (LHead (hashpjw n mod LHASH_TABLE_SIZE)) n = Ok (endp (LHead (lhash n)) pre, find (is t n) (loc t)) /\
    find (is t n) (loc t) = hd_error suf.
Proof.
  intros R B CU. set (l := bL t (lhash n) (loc t)).
  assert (IN : forall x, In x l -> 0 <= x < next t) by (intros x I; apply filter_In in I as [I _]; apply (r_ownL _ _ _ R x c CU I)).
  destruct (chain_find_spec s n l (LHead (lhash n)) (S (Z.to_nat (brk s))) (lsym_table s (lhash n))) as (pre & suf & E & P & C & M).
  - reflexivity.
  - apply (r_L _ _ _ R). congruence.
  - pose proof (bounded_length l (next t) (r_next _ _ _ R) (filter_NoDup _ _ (r_ndL _ _ _ R)) IN). rewrite (r_brk _ _ _ R). lia.
  - assert (F : find (is t n) (loc t) = hd_error suf).
    { rewrite <- (find_in_bucket t n (loc t) lhash).
      - fold (bL t (lhash n) (loc t)). fold l. rewrite E. apply find_pre.
        + apply (names_eq own s t n pre R); [|exact P]. intros x I. apply IN. rewrite E. apply in_or_app. auto.
        + destruct suf as [|p suf]; [exact I|].
          rewrite <- (r_nm _ _ _ R), <- (r_case _ _ _ R); [exact M|]. apply IN. rewrite E. apply in_or_app. right. left. reflexivity.
      - intros a b X. unfold lhash. rewrite X. reflexivity.
      - exact B.
      - intros p I. apply (r_bytes _ _ _ R). apply (r_ownL _ _ _ R p c CU I). }
    exists pre, suf. split; [exact E|]. split; [|exact F]. rewrite F. exact C.
Qed.

Lemma rep_ptrs own s t l g : rep own s t -> rep own (set_ptrs s l g) t.
Proof. intros R. destruct R. split; assumption. Qed.

(** the pointers left behind by SymFind *)
Definition lplace (s : tabs) (t : spec) (n : list Z) : Prop :=
  exists pre suf, bL t (lhash n) (loc t) = pre ++ suf /\ lsym s = endp (LHead (lhash n)) pre /\ hd_error suf = find (is t n) (loc t).
Definition gplace (s : tabs) (t : spec) (n : list Z) : Prop :=
  exists pre suf, bG t (ghash n) (glob t) = pre ++ suf /\ gsym s = endp (GHead (ghash n)) pre /\ hd_error suf = find (is t n) (glob t).

Lemma SymFind_spec own s t n : rep own s t -> Forall is_byte n ->
  exists s', SymFind s n = Ok (s', visible t n) /\ rep own s' t /\
    (cur t <> None -> lplace s' t n) /\ (find_loc t n = None -> gplace s' t n).
Proof.
  intros R B. unfold SymFind, visible, find_loc. rewrite (r_cur _ _ _ R). destruct (cur t) as [c|] eqn:CU.
  - destruct (find_local own s t n c R B CU) as (pre & suf & E & C & F). cbv zeta. rewrite C. cbn [bindr].
    destruct (find (is t n) (loc t)) as [p|] eqn:FL.
    + eexists. split; [reflexivity|]. split; [apply rep_ptrs; exact R|]. split; [|discriminate].
      intros _. exists pre, suf. rewrite FL. auto.
    + set (s1 := set_ptrs s (endp (LHead (lhash n)) pre) (gsym s)).
      assert (R1 : rep own s1 t) by (apply rep_ptrs; exact R).
      destruct (find_glob own s1 t n R1 B) as (pre' & suf' & E' & C' & F').
      change (S (Z.to_nat (brk s))) with (S (Z.to_nat (brk s1))). rewrite C'. cbn [bindr].
      eexists. split; [reflexivity|]. split; [apply rep_ptrs; exact R1|]. split.
      * intros _. exists pre, suf. rewrite FL. auto.
      * intros _. exists pre', suf'. auto.
  - destruct (find_glob own s t n R B) as (pre' & suf' & E' & C' & F'). cbv zeta. rewrite C'. cbn [bindr].
    eexists. split; [reflexivity|]. split; [apply rep_ptrs; exact R|]. split; [congruence|].
    intros _. exists pre', suf'. auto.
Qed.
Lemma SymFindLocal_spec own s t n : rep own s t -> Forall is_byte n ->
  exists s', SymFindLocal s n = Ok (s', find_loc t n) /\ rep own s' t.
Proof.
  intros R B. unfold SymFindLocal, find_loc. rewrite (r_cur _ _ _ R). destruct (cur t) as [c|] eqn:CU.
  - destruct (find_local own s t n c R B CU) as (pre & suf & E & C & F). rewrite C. cbn [bindr].
    eexists. split; [reflexivity|]. apply rep_ptrs. exact R.
  - eauto.
Qed.
(** ** New symbols *)
Lemma bL_names t t' l i : (forall x, In x l -> names t' x = names t x) -> bL t' i l = bL t i l.
Proof. intros H. apply filter_ext_in. intros x I. rewrite H by exact I. reflexivity. Qed.
Lemma bG_names t t' l i : (forall x, In x l -> names t' x = names t x) -> bG t' i l = bG t i l.
Proof. intros H. apply filter_ext_in. intros x I. rewrite H by exact I. reflexivity. Qed.
Lemma heads_names t t' l : (forall x, In x l -> names t' x = names t x) -> heads t' l = heads t l.
Proof. intros H. unfold heads. apply flat_map_ext. intros i. rewrite (bL_names t t') by exact H. reflexivity. Qed.
Lemma heads_in t l x : In x (heads t l) -> In x l.
Proof.
  unfold heads. intros I. apply in_flat_map in I as (i & _ & I). destruct (bL t i l) as [|y r] eqn:E; cbn [hd_error] in I; [destruct I|].
  destruct I as [<-|[]]. assert (J : In y (bL t i l)) by (rewrite E; left; reflexivity). apply filter_In in J. tauto.
Qed.

(** changes to the data of a symbol in no chain *)
Record differs_at (p : Z) (s s1 : tabs) : Prop := {
  d_brk : brk s1 = brk s; d_lab : labellist s1 = labellist s; d_cur : CurrProc s1 = CurrProc s;
  d_stack : ProcStack s1 = ProcStack s; d_case : case_sensitive s1 = case_sensitive s;
  d_lsym : lsym s1 = lsym s; d_gsym : gsym s1 = gsym s; d_count : SymCount s1 = SymCount s;
  d_gtab : gsym_table s1 = gsym_table s; d_ltab : lsym_table s1 = lsym_table s;
  d_heap : forall x, x <> p -> heap s1 x = heap s x }.

(** a detached symbol occurs nowhere *)
Lemma det_notin own s t p : rep own s t -> In p (det t) ->
  ~ In p (glob t) /\ (cur t <> None -> ~ In p (loc t)) /\ (forall q, valid t q -> ~ In p (saved t q)).
Proof.
  intros R D. destruct (r_ownD _ _ _ R p D) as (O & _). split; [|split].
  - intros I. destruct (r_ownG _ _ _ R p I) as (O' & _). congruence.
  - intros C I. destruct (cur t) as [c|] eqn:CU; [|congruence]. destruct (r_ownL _ _ _ R p c CU I) as (O' & _). congruence.
  - intros q V I. destruct (r_saved _ _ _ R q V) as (_ & W & _). destruct (W p I) as (O' & _). congruence.
Qed.

Lemma rep_new own s t n : rep own s t -> good_name n ->
  let '(s1, p) := SymAlloc s n in
  let t1 := add_name t n true in
  p = next t /\ rep (upd own p OD) s1 (set_scopes t1 (glob t) (loc t) (p :: det t) (dirty t)) /\
  nx s1 p = None /\ nm s1 p = n /\ lsym s1 = lsym s /\ gsym s1 = gsym s.
Proof.
  intros R [GB GL]. cbn [SymAlloc]. cbv zeta. rewrite (r_brk _ _ _ R). set (p := next t).
  pose proof (r_next _ _ _ R) as NP.
  assert (FN : firstn MAX_ID_LEN n = n) by (apply firstn_all2; exact GL).
  assert (LT : forall x, 0 <= x < next t -> x <> p) by (intros x; unfold p; lia).
  assert (HN : forall x, 0 <= x < next t -> upd (heap s) p {| s_name := firstn MAX_ID_LEN n; s_state := SYM_UNDEFINED; scoped := false; nextitem := None; nextll := None |} x = heap s x)
    by (intros x X; apply upd_other, LT, X).
  assert (NN : forall x, 0 <= x < next t -> names (add_name t n true) x = names t x).
  { intros x X. cbn [add_name names]. replace (x =? next t) with false by (unfold p in *; lia). reflexivity. }
  assert (UN : forall x, 0 <= x < next t -> undef (add_name t n true) x = undef t x).
  { intros x X. cbn [add_name undef]. replace (x =? next t) with false by (unfold p in *; lia). reflexivity. }
  split; [reflexivity|]. split; [|split; [unfold nx; cbn [heap]; rewrite upd_same; reflexivity|split; [unfold nm; cbn [heap]; rewrite upd_same; exact FN|split; reflexivity]]].
  assert (IG : forall x, In x (glob t) -> 0 <= x < next t) by (intros x I; apply (r_ownG _ _ _ R x I)).
  assert (ID : forall x, In x (det t) -> 0 <= x < next t) by (intros x I; apply (r_ownD _ _ _ R x I)).
  split; cbn [set_scopes add_name next names undef glob loc det saved cur stack cs dirty brk CurrProc ProcStack case_sensitive SymCount gsym_table lsym_table labellist heap].
  - unfold p. reflexivity.
  - lia.
  - intros x X. unfold nm. cbn [heap]. destruct (Z.eqb_spec x (next t)) as [->|N].
    + fold p. rewrite upd_same. exact FN.
    + rewrite HN by lia. apply (r_nm _ _ _ R). lia.
  - intros x X. destruct (Z.eqb_spec x (next t)) as [->|N]; [exact GB|]. apply (r_bytes _ _ _ R). lia.
  - intros x X. destruct (Z.eqb_spec x (next t)) as [->|N].
    + fold p. rewrite upd_same. reflexivity.
    + rewrite HN by lia. apply (r_state _ _ _ R). lia.
  - apply (r_cur _ _ _ R).
  - apply (r_stack _ _ _ R).
  - apply (r_case _ _ _ R).
  - apply (r_count _ _ _ R).
  - intros i. unfold nx at 1. cbn [heap gsym_table].
    assert (E : bG (set_scopes (add_name t n true) (glob t) (loc t) (p :: det t) (dirty t)) i (glob t) = bG t i (glob t))
      by (apply bG_names; intros x I; apply NN, IG, I).
    rewrite E. apply lseg_frame with (nx := nx s); [apply (r_G _ _ _ R)|].
    intros x I. apply filter_In in I as [I _]. rewrite HN by (apply IG; exact I). reflexivity.
  - intros C i. destruct (cur t) as [c|] eqn:CU; [|congruence].
    assert (IL : forall x, In x (loc t) -> 0 <= x < next t) by (intros x I; apply (r_ownL _ _ _ R x c CU I)).
    assert (E : bL (set_scopes (add_name t n true) (glob t) (loc t) (p :: det t) (dirty t)) i (loc t) = bL t i (loc t))
      by (apply bL_names; intros x I; apply NN, IL, I).
    rewrite E. apply lseg_frame with (nx := nx s); [apply (r_L _ _ _ R); congruence|].
    intros x I. apply filter_In in I as [I _]. unfold nx. cbn [heap]. rewrite HN by (apply IL; exact I). reflexivity.
  - intros x I. destruct (r_ownG _ _ _ R x I) as (A & B & C). rewrite upd_other by (apply LT; exact B). rewrite HN by exact B. split; [exact A|split; [lia|exact C]].
  - intros x c CU I. destruct (r_ownL _ _ _ R x c CU I) as (A & B & C). rewrite upd_other by (apply LT; exact B). rewrite HN by exact B.
    replace (x =? next t) with false by lia. split; [exact A|split; [lia|exact C]].
  - intros x [<-|I].
    + rewrite upd_same. split; [reflexivity|]. rewrite upd_same. split; [unfold p; lia|reflexivity].
    + destruct (r_ownD _ _ _ R x I) as (A & B & C). rewrite upd_other by (apply LT; exact B). rewrite HN by exact B. split; [exact A|split; [lia|exact C]].
  - apply (r_ndG _ _ _ R).
  - apply (r_ndL _ _ _ R).
  - apply (r_nds _ _ _ R).
  - apply (r_stk _ _ _ R).
  - apply (r_clean _ _ _ R).
  - intros q V. destruct (r_saved _ _ _ R q V) as (A & B & C & D).
    assert (IS : forall x, In x (saved t q) -> 0 <= x < next t) by (intros x I; apply (B x I)).
    split; [exact A|]. split; [|split].
    + intros x I. destruct (B x I) as (B1 & B2 & B3). rewrite upd_other by (apply LT; exact B2). rewrite HN by exact B2.
      replace (x =? next t) with false by lia. split; [exact B1|split; [lia|exact B3]].
    + match goal with |- lseg _ _ (heads ?t' _) => rewrite (heads_names t t') by (intros x I; apply NN, IS, I) end.
      apply lseg_frame with (nx := fun x => nextll (heap s x)); [exact C|]. intros x I. rewrite HN; [reflexivity|]. apply IS, (heads_in t). exact I.
    + intros i. match goal with |- lseg _ _ (bL ?t' _ _) => rewrite (bL_names t t') by (intros x I; apply NN, IS, I) end.
      apply lseg_frame with (nx := nx s); [apply D|].
      intros x I. apply filter_In in I as [I _]. unfold nx. cbn [heap]. rewrite HN by (apply IS; exact I). reflexivity.
Qed.

Lemma without_in p l x : In x (without p l) <-> In x l /\ x <> p.
Proof. unfold without. rewrite filter_In. split; intros [A B]; split; try assumption; [destruct (Z.eqb_spec x p); [discriminate|assumption]|replace (x =? p) with false by lia; reflexivity]. Qed.
Lemma NoDup_snoc (l : list Z) p : NoDup l -> ~ In p l -> NoDup (l ++ [p]).
Proof.
  induction 1 as [|x l NI ND IH]; intros H; cbn [app]; [constructor; [intros []|constructor]|].
  constructor; [|apply IH; intros I; apply H; right; exact I].
  intros I. apply in_app_or in I as [I|[<-|[]]]; [contradiction|]. apply H. left. reflexivity.
Qed.
Lemma NoDup_app_l {A} (l r : list A) : NoDup (l ++ r) -> NoDup l.
Proof. induction l as [|x l IH]; intros H; [constructor|]. cbn [app] in H. apply NoDup_cons_iff in H as [N H]. constructor; [intros I; apply N, in_or_app; auto|auto]. Qed.

(** link a detached symbol at the end of the global chain *)
Lemma rep_attachG own s t p : rep own s t -> In p (det t) -> nx s p = None ->
  gsym s = endp (GHead (ghash (names t p))) (bG t (ghash (names t p)) (glob t)) ->
  exists s', store s (gsym s) (Some p) = Ok s' /\
    rep (upd own p OG) (set_count s' (SymCount s' + 1)) (set_scopes t (glob t ++ [p]) (loc t) (without p (det t)) (dirty t)) /\
    lsym s' = lsym s.
Proof.
  intros R D NXP GP. set (g := ghash (names t p)) in *. set (pre := bG t g (glob t)) in *.
  destruct (det_notin own s t p R D) as (NG & NL & NS). destruct (r_ownD _ _ _ R p D) as (OD & PR & PS).
  assert (PG : forall x, In x pre -> In x (glob t)) by (intros x I; apply filter_In in I; tauto).
  destruct (store_G s g pre [] (Some p) [p]) as (s' & E & K & LT & GT & LS).
  - rewrite app_nil_r. apply (r_G _ _ _ R).
  - apply filter_NoDup, (r_ndG _ _ _ R).
  - intros x I [<-|[]]. apply NG, PG, I.
  - cbn [lseg]. auto.
  - exists s'. rewrite GP. split; [exact E|]. split; [|apply (k_lsym _ _ _ K)].
    assert (NXO : forall x, own x <> OG -> nx s' x = nx s x).
    { intros x O. apply (k_nx _ _ _ K). intros I. apply O. apply (r_ownG _ _ _ R). apply PG, I. }
    assert (OWN : forall x o, own x = o -> x <> p -> upd own p OG x = o) by (intros; rewrite upd_other by assumption; assumption).
    split; cbn [set_scopes next names undef glob loc det saved cur stack cs dirty set_count brk CurrProc ProcStack case_sensitive SymCount gsym_table lsym_table labellist heap].
    + rewrite (k_brk _ _ _ K). apply (r_brk _ _ _ R).
    + apply (r_next _ _ _ R).
    + intros x X. change (nm s' x = names t x). rewrite (k_nm _ _ _ K). apply (r_nm _ _ _ R). exact X.
    + apply (r_bytes _ _ _ R).
    + intros x X. rewrite (k_state _ _ _ K). apply (r_state _ _ _ R). exact X.
    + rewrite (k_cur _ _ _ K). apply (r_cur _ _ _ R).
    + rewrite (k_stack _ _ _ K). apply (r_stack _ _ _ R).
    + rewrite (k_case _ _ _ K). apply (r_case _ _ _ R).
    + rewrite (k_count _ _ _ K), (r_count _ _ _ R), zlen_app. reflexivity.
    + intros i. change (lseg (nx s') (gsym_table s' i) (bG t i (glob t ++ [p]))). unfold bG. rewrite filter_app. cbn [filter].
      fold g. destruct (Z.eqb_spec g i) as [<-|NE].
      * fold (bG t g (glob t)). exact LS.
      * rewrite app_nil_r. fold (bG t i (glob t)). rewrite GT by congruence.
        apply lseg_frame with (nx := nx s); [apply (r_G _ _ _ R)|].
        intros x I. apply (k_nx _ _ _ K). intros J. apply filter_In in I as [_ I]. apply filter_In in J as [_ J]. lia.
    + intros C i. change (lseg (nx s') (lsym_table s' i) (bL t i (loc t))). rewrite LT.
      apply lseg_frame with (nx := nx s); [apply (r_L _ _ _ R C)|].
      intros x I. apply NXO. apply filter_In in I as [I _]. destruct (cur t) as [c|] eqn:CU; [|congruence].
      destruct (r_ownL _ _ _ R x c CU I) as (O & _). congruence.
    + intros x I. apply in_app_or in I as [I|[<-|[]]].
      * destruct (r_ownG _ _ _ R x I) as (A & B & C). rewrite (k_scoped _ _ _ K). split; [|auto]. apply OWN; [exact A|]. intros ->. contradiction.
      * rewrite upd_same, (k_scoped _ _ _ K). auto.
    + intros x c CU I. destruct (r_ownL _ _ _ R x c CU I) as (A & B & C). rewrite (k_scoped _ _ _ K). split; [|auto]. apply OWN; [exact A|]. intros ->. apply NL; congruence.
    + intros x I. apply without_in in I as [I N]. destruct (r_ownD _ _ _ R x I) as (A & B & C). rewrite (k_scoped _ _ _ K). split; [|auto]. apply OWN; assumption.
    + apply NoDup_snoc; [apply (r_ndG _ _ _ R)|exact NG].
    + apply (r_ndL _ _ _ R).
    + apply (r_nds _ _ _ R).
    + apply (r_stk _ _ _ R).
    + apply (r_clean _ _ _ R).
    + intros q V. destruct (r_saved _ _ _ R q V) as (A & B & C & F). split; [exact A|]. split; [|split].
      * intros x I. destruct (B x I) as (B1 & B2 & B3). rewrite (k_scoped _ _ _ K). split; [|auto]. apply OWN; [exact B1|]. intros ->. apply (NS q V I).
      * rewrite (k_lab _ _ _ K). apply lseg_frame with (nx := fun x => nextll (heap s x)); [exact C|]. intros x I. apply (k_ll _ _ _ K).
      * intros i. change (lseg (nx s') (hd_error (bL t i (saved t q))) (bL t i (saved t q))).
        apply lseg_frame with (nx := nx s); [apply F|]. intros x I. apply NXO. apply filter_In in I as [I _]. destruct (B x I) as (O & _). congruence.
Qed.

(** link a detached symbol at the end of a local chain *)
Lemma rep_attachL own s t s1 t1 p c : rep own s t -> cur t = Some c -> In p (det t) ->
  differs_at p s s1 -> nx s1 p = None -> Forall is_byte (names t1 p) ->
  nm s1 p = names t1 p -> (s_state (heap s1 p) =? SYM_UNDEFINED) = undef t1 p ->
  (scoped (heap s1 p) = true \/ undef t1 p = false) ->
  (forall x, x <> p -> names t1 x = names t x) -> (forall x, x <> p -> undef t1 x = undef t x) ->
  next t1 = next t -> glob t1 = glob t -> loc t1 = loc t -> det t1 = det t -> saved t1 = saved t -> cur t1 = cur t -> stack t1 = stack t -> cs t1 = cs t ->
  lsym s = endp (LHead (lhash (names t1 p))) (bL t (lhash (names t1 p)) (loc t)) ->
  exists s', store s1 (lsym s1) (Some p) = Ok s' /\
    rep (upd own p (OP c)) s' (set_scopes t1 (glob t) (loc t ++ [p]) (without p (det t)) true).
Proof.
  intros R CU D DF NXP NB NMP STP SCP NM UN T1 T2 T3 T4 T5 T6 T7 T8 LP. set (g := lhash (names t1 p)) in *. set (pre := bL t g (loc t)) in *.
  destruct (det_notin own s t p R D) as (NG & NL & NS). destruct (r_ownD _ _ _ R p D) as (OD & PR & PS).
  specialize (NL ltac:(congruence)).
  assert (PG : forall x, In x pre -> In x (loc t)) by (intros x I; apply filter_In in I; tauto).
  assert (NX1 : forall x, x <> p -> nx s1 x = nx s x) by (intros x N; unfold nx; rewrite (d_heap _ _ _ DF) by exact N; reflexivity).
  destruct (store_L s1 g pre [] (Some p) [p]) as (s' & E & K & GT & LT & LS).
  - rewrite app_nil_r, (d_ltab _ _ _ DF). apply lseg_frame with (nx := nx s); [apply (r_L _ _ _ R); congruence|].
    intros x I. apply NX1. intros ->. apply NL, PG, I.
  - apply filter_NoDup, (r_ndL _ _ _ R).
  - intros x I [<-|[]]. apply NL, PG, I.
  - cbn [lseg]. auto.
  - exists s'. rewrite (d_lsym _ _ _ DF), LP. split; [exact E|].
    assert (NXO : forall x, own x <> OP c -> x <> p -> nx s' x = nx s x).
    { intros x O N. rewrite (k_nx _ _ _ K); [apply NX1, N|]. intros I. apply O. apply (r_ownL _ _ _ R x c CU). apply PG, I. }
    assert (OWN : forall x o, own x = o -> x <> p -> upd own p (OP c) x = o) by (intros; rewrite upd_other by assumption; assumption).
    assert (HS : forall x, x <> p -> scoped (heap s' x) = scoped (heap s x)).
    { intros x N. rewrite (k_scoped _ _ _ K), (d_heap _ _ _ DF) by exact N. reflexivity. }
    assert (BG1 : forall l i, ~ In p l -> bG t1 i l = bG t i l) by (intros l i N; apply bG_names; intros x I; apply NM; congruence).
    assert (BL1 : forall l i, ~ In p l -> bL t1 i l = bL t i l) by (intros l i N; apply bL_names; intros x I; apply NM; congruence).
    split; cbn [set_scopes next names undef glob loc det saved cur stack cs dirty].
    + rewrite (k_brk _ _ _ K), (d_brk _ _ _ DF), T1. apply (r_brk _ _ _ R).
    + rewrite T1. apply (r_next _ _ _ R).
    + intros x X. rewrite (k_nm _ _ _ K). destruct (Z.eq_dec x p) as [->|N]; [exact NMP|].
      unfold nm. rewrite (d_heap _ _ _ DF), NM by exact N. apply (r_nm _ _ _ R). lia.
    + intros x X. destruct (Z.eq_dec x p) as [->|N]; [exact NB|]. rewrite NM by exact N. apply (r_bytes _ _ _ R). lia.
    + intros x X. rewrite (k_state _ _ _ K). destruct (Z.eq_dec x p) as [->|N]; [exact STP|].
      rewrite (d_heap _ _ _ DF), UN by exact N. apply (r_state _ _ _ R). lia.
    + rewrite (k_cur _ _ _ K), (d_cur _ _ _ DF), T6. apply (r_cur _ _ _ R).
    + rewrite (k_stack _ _ _ K), (d_stack _ _ _ DF), T7. apply (r_stack _ _ _ R).
    + rewrite (k_case _ _ _ K), (d_case _ _ _ DF), T8. apply (r_case _ _ _ R).
    + rewrite (k_count _ _ _ K), (d_count _ _ _ DF). apply (r_count _ _ _ R).
    + intros i. change (lseg (nx s') (gsym_table s' i) (bG t1 i (glob t))). rewrite BG1, GT, (d_gtab _ _ _ DF) by exact NG.
      apply lseg_frame with (nx := nx s); [apply (r_G _ _ _ R)|].
      intros x I. apply filter_In in I as [I _]. apply NXO; [|congruence]. destruct (r_ownG _ _ _ R x I) as (O & _). congruence.
    + intros C i. change (lseg (nx s') (lsym_table s' i) (bL t1 i (loc t ++ [p]))). unfold bL. rewrite filter_app. cbn [filter].
      fold g. fold (bL t1 i (loc t)). rewrite BL1 by exact NL. destruct (Z.eqb_spec g i) as [<-|NE].
      * exact LS.
      * rewrite app_nil_r. rewrite LT, (d_ltab _ _ _ DF) by congruence.
        apply lseg_frame with (nx := nx s); [apply (r_L _ _ _ R); congruence|].
        intros x I. rewrite (k_nx _ _ _ K).
        -- apply NX1. intros ->. apply NL. apply filter_In in I. tauto.
        -- intros J. apply filter_In in I as [_ I]. apply filter_In in J as [_ J]. lia.
    + intros x I. destruct (r_ownG _ _ _ R x I) as (A & B & C). rewrite HS, T1 by congruence. split; [|auto]. apply OWN; [exact A|congruence].
    + intros x c' CU' I. assert (c' = c) by congruence. subst c'. rewrite T1. apply in_app_or in I as [I|[<-|[]]].
      * destruct (r_ownL _ _ _ R x c CU I) as (A & B & C). assert (x <> p) by congruence.
        rewrite HS, UN by assumption. split; [|auto]. apply OWN; assumption.
      * rewrite upd_same. split; [reflexivity|]. split; [exact PR|]. rewrite (k_scoped _ _ _ K). exact SCP.
    + intros x I. apply without_in in I as [I N]. destruct (r_ownD _ _ _ R x I) as (A & B & C). rewrite HS, T1 by exact N. split; [|auto]. apply OWN; assumption.
    + apply (r_ndG _ _ _ R).
    + apply NoDup_snoc; [apply (r_ndL _ _ _ R)|exact NL].
    + rewrite T6, T7. apply (r_nds _ _ _ R).
    + rewrite T6, T7. apply (r_stk _ _ _ R).
    + intros q _ X. discriminate.
    + intros q V. rewrite T5, T1. assert (VQ : q <> c) by (intros ->; apply V; cbn [set_scopes cur dirty]; rewrite T6; auto).
      assert (V' : valid t q) by (intros [X _]; congruence).
      destruct (r_saved _ _ _ R q V') as (A & B & C & F). specialize (NS q V').
      split; [exact A|]. split; [|split].
      * intros x I. destruct (B x I) as (B1 & B2 & B3). assert (x <> p) by congruence. rewrite HS, UN by assumption. split; [|auto]. apply OWN; assumption.
      * rewrite (k_lab _ _ _ K), (d_lab _ _ _ DF).
        match goal with |- lseg _ _ (heads ?t' _) => rewrite (heads_names t t') by (intros x I; apply NM; congruence) end.
        apply lseg_frame with (nx := fun x => nextll (heap s x)); [exact C|].
        intros x I. rewrite (k_ll _ _ _ K), (d_heap _ _ _ DF); [reflexivity|]. intros ->. apply NS, (heads_in t), I.
      * intros i. match goal with |- lseg _ _ (bL ?t' _ _) => rewrite (bL_names t t') by (intros x I; apply NM; congruence) end.
        apply lseg_frame with (nx := nx s); [apply F|]. intros x I. apply filter_In in I as [I _]. apply NXO; [|congruence].
        destruct (B x I) as (O & _). congruence.
Qed.

Lemma zlen_without p : forall l, NoDup l -> In p l -> zlen (without p l) = zlen l - 1.
Proof.
  induction l as [|x l IH]; intros ND I; [destruct I|]. apply NoDup_cons_iff in ND as [NI ND]. unfold without. cbn [filter].
  destruct I as [->|I].
  - rewrite Z.eqb_refl. cbn [negb]. rewrite zlen_cons. fold (without p l).
    assert (E : without p l = l).
    { clear -NI. induction l as [|y l IH]; [reflexivity|]. unfold without. cbn [filter]. replace (y =? p) with false by (symmetry; apply Z.eqb_neq; intros ->; apply NI; left; reflexivity).
      cbn [negb]. f_equal. apply IH. intros I. apply NI. right. exact I. }
    rewrite E. lia.
  - replace (x =? p) with false by (symmetry; apply Z.eqb_neq; intros ->; contradiction). cbn [negb]. rewrite !zlen_cons.
    fold (without p l). rewrite IH by assumption. lia.
Qed.
Lemma filter_comm {A} (f g : A -> bool) l : filter f (filter g l) = filter g (filter f l).
Proof. induction l as [|x l IH]; [reflexivity|]. cbn [filter]. destruct (g x) eqn:G; destruct (f x) eqn:F; cbn [filter]; rewrite ?G, ?F, IH; reflexivity. Qed.
Lemma without_notin p l : ~ In p l -> without p l = l.
Proof.
  induction l as [|y l IH]; intros NI; [reflexivity|]. unfold without. cbn [filter].
  replace (y =? p) with false by (symmetry; apply Z.eqb_neq; intros ->; apply NI; left; reflexivity).
  cbn [negb]. f_equal. apply IH. intros I. apply NI. right. exact I.
Qed.

(** take an undefined symbol out of the global chain *)
Lemma rep_detachG own s t p pre post : rep own s t -> In p (glob t) ->
  bG t (ghash (names t p)) (glob t) = pre ++ p :: post -> gsym s = endp (GHead (ghash (names t p))) pre ->
  exists s', store s (gsym s) (nextitem (heap s p)) = Ok s' /\
    rep (upd own p OD) (set_count s' (SymCount s' - 1)) (set_scopes t (without p (glob t)) (loc t) (p :: det t) (dirty t)) /\
    lsym s' = lsym s.
Proof.
  intros R D BE GP. set (g := ghash (names t p)) in *.
  destruct (r_ownG _ _ _ R p D) as (OD & PR & PS).
  assert (ND : NoDup (pre ++ p :: post)) by (rewrite <- BE; apply filter_NoDup, (r_ndG _ _ _ R)).
  assert (PG : forall x, In x pre -> In x (glob t)) by (intros x I; assert (J : In x (bG t g (glob t))) by (rewrite BE; apply in_or_app; auto); apply filter_In in J; tauto).
  assert (PN : ~ In p (pre ++ post)) by (apply NoDup_remove_2; exact ND).
  assert (LSP : lseg (nx s) (nx s p) post).
  { pose proof (r_G _ _ _ R g) as L. rewrite BE in L. clear -L. revert L. generalize (gsym_table s g).
    induction pre as [|x pre IH]; intros h L; cbn [app lseg] in L; [apply L|]. apply (IH _ (proj2 L)). }
  destruct (store_G s g pre (p :: post) (nx s p) post) as (s' & E & K & LT & GT & LS).
  - rewrite <- BE. apply (r_G _ _ _ R).
  - apply NoDup_app_l in ND. exact ND.
  - intros x I J. clear -ND I J. induction pre as [|y pre IH]; [destruct I|]. cbn [app] in ND. apply NoDup_cons_iff in ND as [N ND].
    destruct I as [->|I]; [|apply IH; assumption]. apply N. apply in_or_app. right. right. exact J.
  - exact LSP.
  - exists s'. rewrite GP. split; [exact E|]. split; [|apply (k_lsym _ _ _ K)].
    assert (NXO : forall x, own x <> OG -> nx s' x = nx s x).
    { intros x O. apply (k_nx _ _ _ K). intros I. apply O. apply (r_ownG _ _ _ R). apply PG, I. }
    assert (OWN : forall x o, own x = o -> x <> p -> upd own p SymTab_Proofs.OD x = o) by (intros; rewrite upd_other by assumption; assumption).
    split; cbn [set_scopes next names undef glob loc det saved cur stack cs dirty set_count brk CurrProc ProcStack case_sensitive SymCount gsym_table lsym_table labellist heap].
    + rewrite (k_brk _ _ _ K). apply (r_brk _ _ _ R).
    + apply (r_next _ _ _ R).
    + intros x X. change (nm s' x = names t x). rewrite (k_nm _ _ _ K). apply (r_nm _ _ _ R). exact X.
    + apply (r_bytes _ _ _ R).
    + intros x X. rewrite (k_state _ _ _ K). apply (r_state _ _ _ R). exact X.
    + rewrite (k_cur _ _ _ K). apply (r_cur _ _ _ R).
    + rewrite (k_stack _ _ _ K). apply (r_stack _ _ _ R).
    + rewrite (k_case _ _ _ K). apply (r_case _ _ _ R).
    + rewrite (k_count _ _ _ K), (r_count _ _ _ R), zlen_without; [reflexivity|apply (r_ndG _ _ _ R)|exact D].
    + intros i. change (lseg (nx s') (gsym_table s' i) (bG t i (without p (glob t)))). unfold bG, without. rewrite filter_comm.
      fold (bG t i (glob t)). fold (without p (bG t i (glob t))).
      destruct (Z.eq_dec i g) as [->|NE].
      * rewrite BE. unfold without. rewrite filter_app. cbn [filter]. rewrite Z.eqb_refl. cbn [negb].
        fold (without p pre). fold (without p post).
        rewrite !without_notin; [exact LS|intros I; apply PN, in_or_app; auto|intros I; apply PN, in_or_app; auto].
      * rewrite without_notin by (intros I; apply filter_In in I as [_ I]; fold g in I; lia).
        rewrite GT by congruence. apply lseg_frame with (nx := nx s); [apply (r_G _ _ _ R)|].
        intros x I. apply (k_nx _ _ _ K). intros J.
        assert (J' : In x (bG t g (glob t))) by (rewrite BE; apply in_or_app; auto).
        apply filter_In in I as [_ I]. apply filter_In in J' as [_ J']. lia.
    + intros C i. change (lseg (nx s') (lsym_table s' i) (bL t i (loc t))). rewrite LT.
      apply lseg_frame with (nx := nx s); [apply (r_L _ _ _ R C)|].
      intros x I. apply NXO. apply filter_In in I as [I _]. destruct (cur t) as [c|] eqn:CU; [|congruence].
      destruct (r_ownL _ _ _ R x c CU I) as (O & _). congruence.
    + intros x I. apply without_in in I as [I N]. destruct (r_ownG _ _ _ R x I) as (A & B & C). rewrite (k_scoped _ _ _ K). split; [|auto]. apply OWN; assumption.
    + intros x c CU I. destruct (r_ownL _ _ _ R x c CU I) as (A & B & C). rewrite (k_scoped _ _ _ K). split; [|auto]. apply OWN; [exact A|]. congruence.
    + intros x [<-|I].
      * rewrite upd_same, (k_scoped _ _ _ K). auto.
      * destruct (r_ownD _ _ _ R x I) as (A & B & C). rewrite (k_scoped _ _ _ K). split; [|auto]. apply OWN; [exact A|congruence].
    + apply filter_NoDup, (r_ndG _ _ _ R).
    + apply (r_ndL _ _ _ R).
    + apply (r_nds _ _ _ R).
    + apply (r_stk _ _ _ R).
    + apply (r_clean _ _ _ R).
    + intros q V. destruct (r_saved _ _ _ R q V) as (A & B & C & F). split; [exact A|]. split; [|split].
      * intros x I. destruct (B x I) as (B1 & B2 & B3). rewrite (k_scoped _ _ _ K). split; [|auto]. apply OWN; [exact B1|congruence].
      * rewrite (k_lab _ _ _ K). apply lseg_frame with (nx := fun x => nextll (heap s x)); [exact C|]. intros x I. apply (k_ll _ _ _ K).
      * intros i. change (lseg (nx s') (hd_error (bL t i (saved t q))) (bL t i (saved t q))).
        apply lseg_frame with (nx := nx s); [apply F|]. intros x I. apply NXO. apply filter_In in I as [I _]. destruct (B x I) as (O & _). congruence.
Qed.
