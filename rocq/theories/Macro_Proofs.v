From Coq Require Import List ZArith Bool Lia.
From Verif Require Import Base Macro_Model Macro_Spec.
Import ListNotations.
Open Scope Z_scope.

Lemma idc_eq c : is_valid_id_char c = idc c.
Proof. unfold is_valid_id_char, idc, isldigit, digit, letter. cbn [existsb]. rewrite orb_false_r. rewrite <- !orb_assoc. reflexivity. Qed.
Lemma digit_eq c : isldigit c = digit c. Proof. reflexivity. Qed.
Lemma letter_idc c : digit c = false -> idc c = letter c. Proof. unfold idc. intros ->. reflexivity. Qed.
Lemma span_eq l : span_id l = (firstn (word_len l) l, skipn (word_len l) l).
Proof. induction l as [|c l IH]; [reflexivity|]. cbn [span_id word_len]. rewrite idc_eq. destruct (idc c); [rewrite IH; reflexivity|reflexivity]. Qed.

Ltac dec := match goal with |- context[if list_eq_dec Z.eq_dec ?a ?b then _ else _] => destruct (list_eq_dec Z.eq_dec a b) end.
Lemma lower_small c : lower c = small c. Proof. reflexivity. Qed.
Lemma symcmp_eq nocase a : forall b, SymCmp nocase a b = same_name nocase a b.
Proof.
  unfold same_name. induction a as [|x a IH]; intros [|y b]; cbn [SymCmp].
  - destruct nocase; cbn [map]; dec; try reflexivity; congruence.
  - destruct nocase; cbn [map]; dec; try reflexivity; congruence.
  - destruct nocase; cbn [map]; dec; try reflexivity; congruence.
  - rewrite IH, (lower_small x), (lower_small y). destruct nocase; cbn [map].
    + destruct (Z.eqb_spec (small x) (small y)); cbn [andb].
      * destruct (list_eq_dec Z.eq_dec (map small a) (map small b)), (list_eq_dec Z.eq_dec (small x :: map small a) (small y :: map small b)); try reflexivity; congruence.
      * destruct (list_eq_dec Z.eq_dec (small x :: map small a) (small y :: map small b)); try reflexivity; congruence.
    + destruct (Z.eqb_spec x y); cbn [andb].
      * destruct (list_eq_dec Z.eq_dec a b), (list_eq_dec Z.eq_dec (x :: a) (y :: b)); try reflexivity; congruence.
      * destruct (list_eq_dec Z.eq_dec (x :: a) (y :: b)); try reflexivity; congruence.
Qed.
Lemma same_sym nocase a b : same_name nocase a b = same_name nocase b a.
Proof. unfold same_name. destruct nocase; dec; dec; congruence. Qed.
Lemma same_len nocase a b : same_name nocase a b = true -> zlen a = zlen b.
Proof.
  unfold same_name. match goal with |- context[if ?d then _ else _] => destruct d as [E|]; [|discriminate] end. intros _. unfold zlen. destruct nocase; [|congruence].
  apply (f_equal (@length Z)) in E. rewrite !map_length in E. lia.
Qed.
Lemma fits nocase n w : (zlen n =? zlen w) && SymCmp nocase w n = same_name nocase n w.
Proof.
  rewrite symcmp_eq, (same_sym nocase w n). destruct (same_name nocase n w) eqn:E; [|apply andb_false_r].
  apply same_len in E. rewrite E, Z.eqb_refl. reflexivity.
Qed.
(** the number of a name *)
Lemma find_name_eq nocase w names : forall vals k, length vals = length names ->
  match find_name nocase w names k with
  | Some i => exists j, i = k + Z.of_nat j /\ (j < length names)%nat /\ same_name nocase (nth j names []) w = true /\ value nocase (combine names vals) w = Some (nth j vals [])
  | None => value nocase (combine names vals) w = None
  end.
Proof.
  induction names as [|n names IH]; intros [|v vals] k L; cbn in L; try lia; cbn [find_name].
  - reflexivity.
  - rewrite fits. unfold value. cbn [combine find]. destruct (same_name nocase n w) eqn:E.
    + exists 0%nat. cbn. repeat split; try lia; assumption.
    + specialize (IH vals (k + 1) ltac:(lia)). destruct (find_name nocase w names (k + 1)) as [i|].
      * destruct IH as (j & -> & B & C & D). exists (S j). cbn [length nth]. repeat split; try lia; assumption.
      * exact IH.
Qed.

(** filling *)
Lemma fill_app argv ls : forall n a b x, (length a <= n)%nat -> fill_placeholders argv ls a = Ok x ->
  fill_placeholders argv ls (a ++ b) = bindr (fill_placeholders argv ls b) (fun k => Ok (x ++ k)).
Proof.
  induction n as [|n IH]; intros a b x L H; destruct a as [|c a]; cbn in L; try lia.
  - cbn in H |- *. assert (G : x = []) by congruence. subst. destruct (fill_placeholders argv ls b); reflexivity.
  - cbn in H |- *. assert (G : x = []) by congruence. subst. destruct (fill_placeholders argv ls b); reflexivity.
  - cbn [app fill_placeholders] in H |- *. destruct (c =? PLACEHOLDER_CHAR).
    + destruct a as [|i a]; [discriminate|]. cbn [app]. destruct (fill_placeholders argv ls a) as [y| |] eqn:E; try discriminate. cbn [bindr] in H.
      assert (G : forall a b : list Z, Ok a = Ok b -> a = b) by congruence. apply G in H. subst x.
      rewrite (IH a b y) by (cbn in L; (lia || exact E)). destruct (fill_placeholders argv ls b); cbn; try reflexivity. rewrite app_assoc. reflexivity.
    + destruct (fill_placeholders argv ls a) as [y| |] eqn:E; try discriminate. cbn [bindr] in H.
      assert (G : forall a b : list Z, Ok a = Ok b -> a = b) by congruence. apply G in H. subst x.
      rewrite (IH a b y) by (cbn in L; (lia || exact E)). destruct (fill_placeholders argv ls b); reflexivity.
Qed.
Lemma fill_plain argv ls l : Forall (fun c => c <> 10) l -> fill_placeholders argv ls l = Ok l.
Proof.
  induction l as [|c l IH]; intros H; [reflexivity|]. apply Forall_cons_iff in H as [H1 H2]. cbn [fill_placeholders]. unfold PLACEHOLDER_CHAR.
  destruct (Z.eqb_spec c 10); [lia|]. rewrite (IH H2). reflexivity.
Qed.
Lemma fill_more argv ls d x l y : fill_placeholders argv ls (rev d) = Ok x -> fill_placeholders argv ls l = Ok y -> fill_placeholders argv ls (rev d ++ l) = Ok (x ++ y).
Proof. intros A B. rewrite (fill_app argv ls _ _ _ x (le_n _) A), B. reflexivity. Qed.

(** the spec does not depend on the fuel *)
Lemma word_len_le l : (word_len l <= length l)%nat.
Proof. induction l as [|c l IH]; cbn; [lia|]. destruct (idc c); cbn; lia. Qed.
Lemma without_le c l : (length (without c l) <= length l)%nat.
Proof. unfold without. destruct l as [|x l]; cbn; [lia|]. destruct (x =? c); cbn; lia. Qed.
Lemma word_rest c r : (length (snd (word (c :: r))) <= length r)%nat.
Proof. cbn. rewrite skipn_length. lia. Qed.
Lemma expand_fuel dot nocase ms : forall f g prev s l, (length l < f)%nat -> (length l < g)%nat -> expand f dot nocase ms prev s l = expand g dot nocase ms prev s l.
Proof.
  induction f as [|f IH]; intros g prev s l Hf Hg; [lia|]. destruct g as [|g]; [lia|].
  destruct l as [|c r]; [reflexivity|]. cbn [length] in Hf, Hg.
  cbn [expand]. destruct (digit c) eqn:D.
  { f_equal. apply IH; rewrite skipn_length; cbn [word_len length]; unfold idc; rewrite D; cbn [orb length]; pose proof (word_len_le r); lia. }
  destruct (word_here dot prev (c :: r)).
  { cbn [word]. pose proof (word_rest c r) as W. cbn [word snd] in W. pose proof (without_le 38 (skipn (word_len r) r)) as W2.
    destruct (value nocase ms _) as [x|]; [destruct (inside s); [destruct (starts_with 38 _)|]|]; f_equal; apply IH; lia. }
  destruct (if (c =? 38) && word_here dot (Some 38) r then value nocase ms (fst (word r)) else None) as [x|] eqn:E.
  { f_equal. destruct r as [|c2 r]; [destruct (c =? 38); discriminate|]. pose proof (word_rest c2 r) as W. pose proof (without_le 38 (snd (word (c2 :: r)))) as W2. cbn [length] in Hf, Hg. apply IH; lia. }
  destruct r as [|x r']; [reflexivity|]. cbn [length] in Hf, Hg.
  destruct ((c =? 33) && _ && _); f_equal; [f_equal|]; apply IH; cbn [length]; lia.
Qed.

Definition text (argv : list (option (list Z))) (ls i : Z) : list Z :=
  if i - 1 >=? zlen argv then local_name (wrap 32 (ls + (i - 1) - zlen argv))
  else match nth (Z.to_nat (i - 1)) argv None with Some a => a | None => [] end.
Definition vals argv ls (names : list (list Z)) : list (list Z) := map (fun j => text argv ls (Z.of_nat j + 1)) (seq 0 (length names)).
Lemma vals_len argv ls names : length (vals argv ls names) = length names.
Proof. unfold vals. rewrite map_length, seq_length. reflexivity. Qed.
Lemma vals_nth argv ls names j : (j < length names)%nat -> nth j (vals argv ls names) [] = text argv ls (Z.of_nat j + 1).
Proof.
  intros H. unfold vals. rewrite (nth_indep _ [] (text argv ls (Z.of_nat 0 + 1))) by (rewrite map_length, seq_length; lia).
  rewrite (map_nth (fun j => text argv ls (Z.of_nat j + 1)) (seq 0 (length names)) 0%nat j), seq_nth by lia. reflexivity.
Qed.
Lemma fill_one argv ls i : fill_placeholders argv ls [10; i] = Ok (text argv ls i).
Proof. cbn. rewrite app_nil_r. reflexivity. Qed.

Definition rel (s : scan) (p : place) : Prop :=
  quote s = match inside p with Some d => d | None => 0 end /\ (forall d, inside p = Some d -> d = 34 \/ d = 39) /\ brlevel s = depth p /\ qlevel s = began p.
Lemma rel_quote s p : rel s p -> (quote s =? 0) = match inside p with Some _ => false | None => true end.
Proof. intros (A & B & _). destruct (inside p) as [d|]; rewrite A; [|reflexivity]. destruct (B d eq_refl) as [-> | ->]; reflexivity. Qed.
Definition esc (p : place) (c : Z) (r : list Z) : bool :=
  match r with x :: _ => (c =? 33) && match inside p with None => true | _ => false end && existsb (Z.eqb x) [60; 62; 34; 39] | [] => false end.
Lemma other_eq s p c r s' sk r' : rel s p -> other s c r = Ok (s', sk, r') ->
  (esc p c r = true /\ exists x, r = x :: r' /\ sk = [x; c] /\ s' = s /\ x <> 38 /\ x <> 10) \/ (esc p c r = false /\ sk = [c] /\ r' = r /\ rel s' (after_char p c)).
Proof.
  intros R H. unfold other in H. rewrite (rel_quote s p R) in H. destruct R as (A & B & C & D).
  assert (G : forall a b : scan * list Z * list Z, Ok a = Ok b -> a = b) by congruence.
  unfold esc. destruct (Z.eqb_spec c 33) as [->|N33].
  - cbn [andb] in H |- *. destruct (inside p) as [d|] eqn:Ei; cbn [andb] in H |- *.
    + change (33 =? 60) with false in H. change (33 =? 62) with false in H. change ((33 =? 34) || (33 =? 39)) with false in H. cbn in H.
      apply G in H. apply pair_equal_spec in H as [H <-]. apply pair_equal_spec in H as [<- <-].
      right. repeat split; try (destruct r; reflexivity); try assumption. all: unfold after_char; cbn; try rewrite Ei; auto.
    + destruct r as [|x r1]; [discriminate|]. cbn [existsb]. rewrite orb_false_r, !orb_assoc. destruct ((x =? 60) || (x =? 62) || (x =? 34) || (x =? 39)) eqn:Ex; apply G in H;
      apply pair_equal_spec in H as [H <-]; apply pair_equal_spec in H as [<- <-].
      * left. split; [reflexivity|]. exists x. repeat split; destruct (Z.eqb_spec x 60), (Z.eqb_spec x 62), (Z.eqb_spec x 34), (Z.eqb_spec x 39); cbn in Ex; try discriminate; lia.
      * right. repeat split; unfold after_char; cbn; rewrite ?Ei; auto.
  - cbn [andb] in H. right. split; [destruct r; reflexivity|].
    unfold after_char. destruct (Z.eqb_spec c 60) as [->|N60].
    { apply G in H. apply pair_equal_spec in H as [H <-]; apply pair_equal_spec in H as [<- <-]. repeat split; cbn; auto; lia. }
    destruct (Z.eqb_spec c 62) as [->|N62].
    { apply G in H. apply pair_equal_spec in H as [H <-]; apply pair_equal_spec in H as [<- <-]. split; [reflexivity|]. split; [reflexivity|].
      rewrite C, D. destruct (Z.eqb_spec (depth p) 0); cbn [negb]; [repeat split; auto|]. destruct (began p =? depth p); repeat split; cbn; auto; try congruence; lia. }
    destruct ((c =? 34) || (c =? 39)) eqn:Eq.
    { apply G in H. apply pair_equal_spec in H as [H <-]; apply pair_equal_spec in H as [<- <-]. split; [reflexivity|]. split; [reflexivity|].
      assert (Ec : c = 34 \/ c = 39) by (destruct (Z.eqb_spec c 34), (Z.eqb_spec c 39); cbn in Eq; try discriminate; lia).
      destruct (inside p) as [d|] eqn:Ei; cbn iota in A; rewrite A.
      - specialize (B d eq_refl). cbn [negb].
        destruct (d =? c); repeat split; cbn; auto; try congruence.
      - cbn [negb]. repeat split; cbn; auto. intros d X. assert (d = c) by congruence. subst. exact Ec. }
    apply G in H. apply pair_equal_spec in H as [H <-]; apply pair_equal_spec in H as [<- <-]. repeat split; auto.
Qed.

Section Main.
Variables (dot nocase : bool) (names : list (list Z)) (argv : list (option (list Z))) (ls : Z).
Hypothesis HH : all_harmless dot names.
Let ms := combine names (vals argv ls names).
Definition Exp prev p l := expand (S (length l)) dot nocase ms prev p l.

Lemma Exp_f f prev p l : (length l < f)%nat -> expand f dot nocase ms prev p l = Exp prev p l.
Proof. intros H. apply expand_fuel; lia. Qed.
Lemma Exp_nil prev p : Exp prev p [] = []. Proof. reflexivity. Qed.
Lemma Exp_digit prev p c r : digit c = true -> let w := firstn (word_len (c :: r)) (c :: r) in
  Exp prev p (c :: r) = w ++ Exp (Some (last w 0)) p (skipn (word_len (c :: r)) (c :: r)).
Proof.
  intros D w. unfold Exp at 1. cbn [expand]. rewrite D. fold w. f_equal. apply Exp_f.
  rewrite skipn_length. cbn [word_len length]. unfold idc. rewrite D. cbn [orb length]. pose proof (word_len_le r). lia.
Qed.
Lemma Exp_word prev p c r : digit c = false -> word_here dot prev (c :: r) = true ->
  let w := c :: firstn (word_len r) r in let rest := skipn (word_len r) r in
  Exp prev p (c :: r) = match value nocase ms w, inside p, starts_with 38 rest with
    | Some x, None, _ | Some x, _, true => x ++ Exp None p (without 38 rest)
    | _, _, _ => w ++ Exp (Some (last w 0)) p rest end.
Proof.
  intros D W w rest. unfold Exp at 1. cbn [expand]. rewrite D, W. cbn [word]. fold w rest.
  pose proof (word_rest c r) as X. cbn [word snd] in X. fold rest in X. pose proof (without_le 38 rest).
  destruct (value nocase ms w); [destruct (inside p); [destruct (starts_with 38 rest)|]|]; f_equal; apply Exp_f; cbn [length]; lia.
Qed.
Lemma Exp_amp prev p r x : word_here dot (Some 38) r = true -> value nocase ms (fst (word r)) = Some x ->
  Exp prev p (38 :: r) = x ++ Exp None p (without 38 (snd (word r))).
Proof.
  intros W V. unfold Exp at 1. cbn [expand]. change (digit 38) with false. cbn iota. change (word_here dot prev (38 :: r)) with false. cbn iota.
  change (38 =? 38) with true. cbn [andb]. rewrite W, V. f_equal. destruct r as [|c r]; [discriminate|].
  pose proof (word_rest c r). pose proof (without_le 38 (snd (word (c :: r)))). apply Exp_f. cbn [length]. lia.
Qed.
Lemma Exp_other prev p c r : digit c = false -> word_here dot prev (c :: r) = false -> (c = 38 -> word_here dot (Some 38) r = true -> value nocase ms (fst (word r)) = None) ->
  Exp prev p (c :: r) = if esc p c r then match r with x :: r' => c :: x :: Exp (Some x) p r' | [] => [c] end else c :: Exp (Some c) (after_char p c) r.
Proof.
  intros D W V. unfold Exp at 1. cbn [expand]. rewrite D, W.
  replace (if (c =? 38) && word_here dot (Some 38) r then value nocase ms (fst (word r)) else None) with (@None (list Z)).
  2: { destruct (Z.eqb_spec c 38); cbn [andb]; [|reflexivity]. destruct (word_here dot (Some 38) r) eqn:E; [symmetry; auto|reflexivity]. }
  destruct r as [|x r']; [reflexivity|]. unfold esc. destruct (_ && _ && _); [|reflexivity].
  f_equal. f_equal. apply Exp_f. cbn [length]. lia.
Qed.
Lemma Exp_absorb prev p r : (word_here dot (Some 38) r = true -> value nocase ms (fst (word r)) = None) -> Exp prev p (38 :: r) = 38 :: Exp (Some 38) p r.
Proof. intros H. rewrite Exp_other by (reflexivity || auto). unfold esc. destruct r; reflexivity. Qed.

Definition okprev (prev : option Z) : bool := match prev with Some x => negb (x =? 93) && negb (idc x) | None => true end.
Definition okd (d : list Z) : bool := match d with x :: _ => negb (x =? 93) && negb (idc x) | [] => true end.
Definition pend (amp before d0 : list Z) : Prop := (amp = [] /\ before = d0 /\ at_ before 38 = false) \/ (amp = [38] /\ before = 38 :: d0).

Lemma find_text w : match find_name nocase w names 1 with
  | Some i => harmless dot i w /\ 1 <= i <= 255 /\ value nocase ms w = Some (text argv ls i)
  | None => value nocase ms w = None end.
Proof.
  pose proof (find_name_eq nocase w names (vals argv ls names) 1 (vals_len _ _ _)) as F. destruct HH as [L H].
  destruct (find_name nocase w names 1) as [i|]; [|exact F]. destruct F as (j & -> & B & C & D). rewrite vals_nth in D by exact B.
  replace (1 + Z.of_nat j) with (Z.of_nat j + 1) by lia. split; [|split; [unfold zlen in L; lia|exact D]].
  specialize (H j B). destruct H as [H|(H1 & H2)]; [left; exact H|right]. apply same_len in C. split; [lia|exact H2].
Qed.
Lemma inert_facts i : inert i -> digit i = false /\ idc i = false /\ i <> 46 /\ i <> 38 /\ i <> 93 /\ forall s r, other s i r = Ok (s, [i], r).
Proof.
  intros [A B]. cbn [In] in B. assert (D : digit i = false) by (unfold idc in A; destruct (digit i); [discriminate|reflexivity]).
  split; [exact D|]. split; [exact A|]. do 3 (split; [lia|]). intros s r. unfold other.
  destruct (Z.eqb_spec i 33), (Z.eqb_spec i 60), (Z.eqb_spec i 62), (Z.eqb_spec i 34), (Z.eqb_spec i 39); try lia. reflexivity.
Qed.
Lemma forall_drop (P : Z -> Prop) l n : Forall P l -> Forall P (skipn n l).
Proof. intros H. rewrite <- (firstn_skipn n l) in H. apply Forall_app in H. tauto. Qed.
Lemma forall_take (P : Z -> Prop) l n : Forall P l -> Forall P (firstn n l).
Proof. intros H. rewrite <- (firstn_skipn n l) in H. apply Forall_app in H. tauto. Qed.
Lemma last_okd w d : w <> [] -> okd (rev w ++ d) = okprev (Some (last w 0)).
Proof. intros H. destruct (exists_last H) as (w' & x & ->). rewrite rev_app_distr, last_last. reflexivity. Qed.
Lemma at_last w d c : w <> [] -> at_ (rev w ++ d) c = (last w 0 =? c).
Proof. intros H. destruct (exists_last H) as (w' & x & ->). rewrite rev_app_distr, last_last. reflexivity. Qed.
Lemma last_in w : w <> [] -> In (last w 0) w.
Proof. intros H. destruct (exists_last H) as (w' & x & ->). rewrite last_last. apply in_or_app. right. left. reflexivity. Qed.
Lemma word_idc l : Forall (fun c => idc c = true) (firstn (word_len l) l).
Proof. induction l as [|c l IH]; cbn; [constructor|]. destruct (idc c) eqn:E; cbn; constructor; assumption. Qed.
Lemma skip_step fuel : (forall s params before rest L n p d0 prev amp a,
    scan_line fuel dot nocase names s params before rest = Ok (L, n) -> rel s p -> Forall (fun c => c <> 10) rest ->
    pend amp before d0 -> dot && okd d0 = dot && okprev prev -> fill_placeholders argv ls (rev d0) = Ok a ->
    fill_placeholders argv ls L = Ok (a ++ Exp prev p (amp ++ rest))) ->
  forall s params before w rest L n p a,
    scan_line fuel dot nocase names s params (rev w ++ before) rest = Ok (L, n) -> rel s p -> Forall (fun c => c <> 10) rest ->
    w <> [] -> Forall (fun c => c <> 10) w -> last w 0 <> 38 -> fill_placeholders argv ls (rev before) = Ok a ->
    fill_placeholders argv ls L = Ok (a ++ w ++ Exp (Some (last w 0)) p rest).
Proof.
  intros IH s params before w rest L n p a E R F Nw Fw N38 A. rewrite app_assoc.
  apply (IH s params (rev w ++ before) rest L n p (rev w ++ before) (Some (last w 0)) [] (a ++ w) E R F).
  - left. split; [reflexivity|]. split; [reflexivity|]. rewrite at_last by exact Nw. apply Z.eqb_neq. exact N38.
  - f_equal. apply last_okd. exact Nw.
  - rewrite rev_app_distr, rev_involutive. apply fill_more; [exact A|apply fill_plain; exact Fw].
Qed.
Lemma fill_amp d0 a amp before : pend amp before d0 -> fill_placeholders argv ls (rev d0) = Ok a -> fill_placeholders argv ls (rev before) = Ok (a ++ amp).
Proof.
  intros [(-> & -> & _)|(-> & ->)] A; [rewrite app_nil_r; exact A|]. cbn [rev]. apply fill_more; [exact A|reflexivity].
Qed.
Lemma absorbed amp before d0 prev p rest : pend amp before d0 -> dot && okd d0 = dot && okprev prev ->
  (amp = [38] -> word_here dot (Some 38) rest = true -> value nocase ms (fst (word rest)) = None) ->
  exists prev', Exp prev p (amp ++ rest) = amp ++ Exp prev' p rest /\ dot && okd before = dot && okprev prev'.
Proof.
  intros [(-> & -> & _)|(-> & ->)] B H.
  - exists prev. split; [reflexivity|exact B].
  - exists (Some 38). split; [apply Exp_absorb; auto|reflexivity].
Qed.

Lemma scan_main : forall m fuel, (fuel <= m)%nat -> forall s params before rest L n p d0 prev amp a,
    scan_line fuel dot nocase names s params before rest = Ok (L, n) -> rel s p -> Forall (fun c => c <> 10) rest ->
    pend amp before d0 -> dot && okd d0 = dot && okprev prev -> fill_placeholders argv ls (rev d0) = Ok a ->
    fill_placeholders argv ls L = Ok (a ++ Exp prev p (amp ++ rest)).
Proof.
  induction m as [|m IH]; intros fuel Hm s params before rest L n p d0 prev amp a E R F P O A;
    (destruct fuel as [|fuel]; [discriminate E|]); [lia|].
  assert (IHf : forall s params before rest L n p d0 prev amp a,
    scan_line fuel dot nocase names s params before rest = Ok (L, n) -> rel s p -> Forall (fun c => c <> 10) rest ->
    pend amp before d0 -> dot && okd d0 = dot && okprev prev -> fill_placeholders argv ls (rev d0) = Ok a ->
    fill_placeholders argv ls L = Ok (a ++ Exp prev p (amp ++ rest))) by (apply IH; lia).
  pose proof (fill_amp d0 a amp before P A) as A2.
  cbn [scan_line] in E. destruct rest as [|c r].
  { assert (G : L = rev before) by congruence. subst L.
    destruct (absorbed amp before d0 prev p [] P O) as (prev' & -> & _); [discriminate|]. rewrite Exp_nil, app_nil_r. exact A2. }
  rewrite digit_eq in E. destruct (digit c) eqn:D.
  { rewrite span_eq in E. set (w := firstn (word_len (c :: r)) (c :: r)) in *. set (rest := skipn (word_len (c :: r)) (c :: r)) in *.
    destruct (absorbed amp before d0 prev p (c :: r) P O) as (prev' & -> & _).
    { intros _ W. exfalso. unfold word_here in W. unfold letter in W. unfold digit in D. cbn [existsb] in W.
      destruct (Z.leb_spec 48 c), (Z.leb_spec c 57); cbn in D; try discriminate.
      destruct (Z.leb_spec 65 c), (Z.leb_spec 97 c), (Z.eqb_spec c 36), (Z.eqb_spec c 63), (Z.eqb_spec c 64), (Z.eqb_spec c 95), (Z.eqb_spec c 46); try lia; discriminate. }
    rewrite (Exp_digit prev' p c r D). fold w rest. rewrite app_assoc.
    assert (Ew : w <> []) by (unfold w; cbn [word_len]; unfold idc; rewrite D; discriminate).
    eapply (skip_step fuel IHf); [exact E|exact R|apply forall_drop; exact F|exact Ew|apply forall_take; exact F| |exact A2].
    pose proof (last_in w Ew) as X. unfold w in X at 2. pose proof (proj1 (Forall_forall _ _) (word_idc (c :: r)) _ X) as Y. cbn beta in Y. intros Z. rewrite Z in Y. discriminate Y. }
  rewrite idc_eq in E.
  assert (Eb : match before with [] => true | x :: _ => negb (x =? 93) && negb (is_valid_id_char x) end = okd before).
  { destruct before as [|x b]; [reflexivity|]. cbn [okd]. rewrite idc_eq. reflexivity. }
  rewrite Eb, (letter_idc c D) in E. clear Eb.
  rewrite span_eq in E. set (w := c :: firstn (word_len r) r) in *. set (rest := skipn (word_len r) r) in *.
  apply Forall_cons_iff in F as [Fc Fr].
  assert (Frest : Forall (fun c => c <> 10) rest) by (apply forall_drop; exact Fr).
  assert (Fw : Forall (fun c => c <> 10) w) by (constructor; [exact Fc|apply forall_take; exact Fr]).
  destruct (letter c || ((c =? 46) && dot && okd before)) eqn:W.
  - (* a word *)
    assert (Lw : last w 0 <> 38).
    { assert (X : In (last w 0) w) by (apply last_in; discriminate). unfold w in X at 2. destruct X as [X|X].
      - rewrite <- X. intros ->. cbn in W. discriminate W.
      - pose proof (proj1 (Forall_forall _ _) (word_idc r) _ X) as Y. cbn beta in Y. intros Z. rewrite Z in Y. discriminate Y. }
    assert (KEEP : scan_line fuel dot nocase names s params (rev w ++ before) rest = Ok (L, n) ->
       (amp = [38] -> value nocase ms w = None) -> (value nocase ms w = None \/ (inside p <> None /\ starts_with 38 rest = false)) ->
       fill_placeholders argv ls L = Ok (a ++ Exp prev p (amp ++ c :: r))).
    { intros E1 K1 K2. destruct (absorbed amp before d0 prev p (c :: r) P O) as (prev' & -> & O2); [intros X _; exact (K1 X)|].
      assert (W2 : word_here dot prev' (c :: r) = true) by (cbn [word_here]; fold (okprev prev'); rewrite <- andb_assoc, <- O2, andb_assoc; exact W).
      rewrite (Exp_word prev' p c r D W2). fold w rest. rewrite app_assoc.
      replace (match value nocase ms w with Some x => match inside p with Some _ => if starts_with 38 rest then x ++ Exp None p (without 38 rest) else w ++ Exp (Some (last w 0)) p rest | None => x ++ Exp None p (without 38 rest) end | None => w ++ Exp (Some (last w 0)) p rest end)
        with (w ++ Exp (Some (last w 0)) p rest).
      2: { destruct K2 as [-> |[K2 ->]]; [reflexivity|]. destruct (value nocase ms w); [|reflexivity]. destruct (inside p); [reflexivity|congruence]. }
      eapply (skip_step fuel IHf); [exact E1|exact R|exact Frest|discriminate|exact Fw|exact Lw|exact A2]. }
    rewrite (rel_quote s p R) in E.
    assert (Ea : at_ before 38 = true <-> amp = [38]) by (destruct P as [(-> & _ & ->)|(-> & ->)]; split; (reflexivity || discriminate)).
    destruct (match inside p with Some _ => false | None => true end || (at_ before 38 || at_ rest 38)) eqn:S2.
    2: { apply orb_false_iff in S2 as [S2 S3]. apply orb_false_iff in S3 as [S3 S4]. apply KEEP; [exact E| |].
         - intros X. apply Ea in X. congruence.
         - right. split; [intros X; rewrite X in S2; discriminate|exact S4]. }
    unfold replace_parm in E. pose proof (find_text w) as T. destruct (find_name nocase w names 1) as [i|].
    2: { cbn [bindr] in E. apply KEEP; [exact E|auto|left; exact T]. }
    destruct T as (T1 & T2 & T3). unfold MAX_PLACEHOLDERS in E. destruct (Z.geb_spec i 256); [lia|].
    (* what the spec says *)
    assert (SP : Exp prev p (amp ++ c :: r) = text argv ls i ++ Exp None p (without 38 rest)).
    { destruct P as [(-> & -> & P3)|(-> & ->)]; cbn [app].
      - assert (W2 : word_here dot prev (c :: r) = true) by (cbn [word_here]; fold (okprev prev); rewrite <- andb_assoc, <- O, andb_assoc; exact W).
        rewrite (Exp_word prev p c r D W2). fold w rest. rewrite T3, P3 in *. cbn [orb] in S2. change (at_ rest 38) with (starts_with 38 rest) in S2.
        destruct (inside p); [|reflexivity]. cbn [orb] in S2. rewrite S2. reflexivity.
      - apply Exp_amp; [exact W|exact T3]. }
    rewrite SP, app_assoc.
    assert (WO : (if at_ rest 38 then drop1 rest else rest) = without 38 rest).
    { unfold without. change (at_ rest 38) with (starts_with 38 rest). destruct rest; reflexivity. }
    assert (Fwo : Forall (fun c => c <> 10) (without 38 rest)).
    { unfold without. destruct (starts_with 38 rest); [|exact Frest]. destruct rest as [|x rest0]; [exact Frest|]. apply Forall_cons_iff in Frest. tauto. }
    assert (PH : forall d, fill_placeholders argv ls (rev d) = Ok a -> fill_placeholders argv ls (rev (i :: 10 :: d)) = Ok (a ++ text argv ls i)).
    { intros d X. cbn [rev]. rewrite <- app_assoc. cbn [app]. apply fill_more; [exact X|apply fill_one]. }
    destruct ((zlen w =? 1) && negb (at_ before 38) && negb (at_ rest 38)) eqn:S3.
    + apply andb_true_iff in S3 as [S3 S5]. apply andb_true_iff in S3 as [S3 S4]. apply negb_true_iff in S4, S5. apply Z.eqb_eq in S3.
      destruct P as [(-> & -> & P3)|(-> & ->)]; [|discriminate S4].
      destruct (_ >? MAX_LINE_LEN); [discriminate|]. cbn [bindr] in E.
      destruct T1 as [T1|T1]; [|lia]. destruct (inert_facts i T1) as (I1 & I2 & I3 & I4 & I5 & I6).
      destruct fuel as [|fuel]; [discriminate|]. cbn [scan_line] in E. rewrite digit_eq, I1, idc_eq, I2 in E.
      destruct (Z.eqb_spec i 46); [lia|]. cbn [orb andb] in E. rewrite I6 in E. cbn [bindr app] in E.
      replace (without 38 rest) with rest in * by (unfold without; change (starts_with 38 rest) with (at_ rest 38); rewrite S5; reflexivity).
      change (Exp None p rest) with (Exp None p ([] ++ rest)).
      eapply (IH fuel ltac:(lia) s (params + 1) (i :: 10 :: d0) rest L n p (i :: 10 :: d0) None []); [exact E|exact R|exact Frest| | |apply PH; exact A].
      * left. repeat split. cbn. apply Z.eqb_neq. exact I4.
      * cbn [okd okprev]. rewrite I2. destruct (Z.eqb_spec i 93); [lia|reflexivity].
    + cbn [bindr] in E. rewrite WO in E.
      assert (EB : (if at_ before 38 then drop1 before else before) = d0) by (destruct P as [(-> & -> & ->)|(-> & ->)]; reflexivity).
      rewrite EB in E. change (Exp None p (without 38 rest)) with (Exp None p ([] ++ without 38 rest)).
      assert (I4 : i <> 38) by (destruct T1 as [T1|T1]; [apply inert_facts; exact T1|tauto]).
      unfold PLACEHOLDER_CHAR in E.
      eapply (IHf s (params + 1) (i :: 10 :: d0) _ L n p (i :: 10 :: d0) None []); [exact E|exact R|exact Fwo| | |apply PH; exact A].
      * left. repeat split. cbn. apply Z.eqb_neq. exact I4.
      * destruct T1 as [T1|(_ & _ & ->)]; [|reflexivity]. destruct (inert_facts i T1) as (I1 & I2 & I3 & _ & I5 & _).
        cbn [okd okprev]. rewrite I2. destruct (Z.eqb_spec i 93); [lia|reflexivity].
  - (* another character *)
    destruct (other s c r) as [[[s' sk] r']| |] eqn:Eo; try discriminate. cbn [bindr] in E.
    apply orb_false_iff in W as [W1 W2].
    destruct (other_eq s p c r s' sk r' R Eo) as [(X1 & x & -> & -> & -> & X2 & X3)|(X1 & -> & -> & R')].
    + assert (C33 : c = 33) by (unfold esc in X1; destruct (Z.eqb_spec c 33); [assumption|discriminate]). subst c.
      destruct (absorbed amp before d0 prev p (33 :: x :: r') P O) as (prev' & -> & O2); [discriminate|].
      rewrite (Exp_other prev' p 33 (x :: r')) by (reflexivity || discriminate). rewrite X1.
      change ([x; 33] ++ before) with (rev [33; x] ++ before) in E. rewrite app_assoc. change (33 :: x :: Exp (Some x) p r') with ([33; x] ++ Exp (Some (last [33; x] 0)) p r').
      apply Forall_cons_iff in Fr as [_ Fr]. eapply (skip_step fuel IHf); [exact E|exact R|exact Fr|discriminate| |exact X2|exact A2].
      constructor; [lia|]. constructor; [exact X3|constructor].
    + destruct (absorbed amp before d0 prev p (c :: r) P O) as (prev' & -> & O2).
      { intros Y X. destruct P as [(Q & _)|(_ & Q)]; [congruence|]. subst before. cbn [word_here] in X. rewrite W1 in X. exfalso.
        change (okd (38 :: d0)) with true in W2. rewrite andb_true_r in X, W2. cbn [orb] in X. congruence. }
      assert (WH : word_here dot prev' (c :: r) = false).
      { cbn [word_here]. fold (okprev prev'). rewrite W1, <- andb_assoc, <- O2, andb_assoc. exact W2. }
      destruct (Z.eq_dec c 38) as [->|N38].
      * rewrite app_assoc. apply (IHf s' params (38 :: before) r L n p before prev' [38] (a ++ amp)); try assumption.
        right. split; reflexivity.
      * rewrite (Exp_other prev' p c r D WH) by (intros; lia). rewrite X1.
        change ([c] ++ before) with (rev [c] ++ before) in E. rewrite app_assoc. change (c :: Exp (Some c) (after_char p c) r) with ([c] ++ Exp (Some (last [c] 0)) (after_char p c) r).
        eapply (skip_step fuel IHf); [exact E|exact R'|exact Fr|discriminate| |exact N38|exact A2]. constructor; [exact Fc|constructor].
Qed.
End Main.

Lemma scan_count dot nocase names : forall fuel s params before rest L n, scan_line fuel dot nocase names s params before rest = Ok (L, n) ->
  params <= n /\ (n = params -> L = rev before ++ rest).
Proof.
  induction fuel as [|fuel IH]; intros s params before rest L n E; [discriminate|]. cbn [scan_line] in E. destruct rest as [|c r].
  { assert (G : forall a b : list Z * Z, Ok a = Ok b -> a = b) by congruence. apply G in E. apply pair_equal_spec in E as [<- <-]. rewrite app_nil_r. split; [lia|reflexivity]. }
  destruct (isldigit c).
  { rewrite span_eq in E. apply IH in E as [E1 E2]. split; [exact E1|]. intros X. rewrite (E2 X), rev_app_distr, rev_involutive, <- app_assoc, firstn_skipn. reflexivity. }
  match type of E with (if ?b then _ else _) = _ => destruct b end.
  - rewrite span_eq in E.
    assert (K : scan_line fuel dot nocase names s params (rev (c :: firstn (word_len r) r) ++ before) (skipn (word_len r) r) = Ok (L, n) -> params <= n /\ (n = params -> L = rev before ++ c :: r)).
    { intros E1. apply IH in E1 as [E1 E2]. split; [exact E1|]. intros X. rewrite (E2 X), rev_app_distr, rev_involutive, <- app_assoc. cbn [app]. rewrite firstn_skipn. reflexivity. }
    match type of E with (if ?b then _ else _) = _ => destruct b end; [|exact (K E)].
    match type of E with bindr ?m _ = _ => destruct m as [[[b1 r1]|]| |] end; try discriminate; cbn [bindr] in E; [|exact (K E)].
    apply IH in E as [E _]. split; lia.
  - match type of E with bindr ?m _ = _ => destruct m as [[[s' sk] r']| |] eqn:Eo end; try discriminate. cbn [bindr] in E. apply IH in E as [E1 E2].
    split; [exact E1|]. intros X. rewrite (E2 X), rev_app_distr, <- app_assoc. f_equal.
    unfold other in Eo. assert (G : forall a b : scan * list Z * list Z, Ok a = Ok b -> a = b) by congruence.
    repeat match type of Eo with (if ?b then _ else _) = _ => destruct b end;
    try (apply G in Eo; apply pair_equal_spec in Eo as [Eo <-]; apply pair_equal_spec in Eo as [_ <-]; reflexivity).
    destruct r as [|x r1]; [discriminate|]. repeat match type of Eo with (if ?b then _ else _) = _ => destruct b end;
    apply G in Eo; apply pair_equal_spec in Eo as [Eo <-]; apply pair_equal_spec in Eo as [_ <-]; reflexivity.
Qed.
Lemma last_skipn (l : list Z) k : skipn k l <> [] -> last (skipn k l) 0 = last l 0.
Proof.
  revert k. induction l as [|x l IH]; intros k H; [destruct k; reflexivity|]. destruct k as [|k]; [reflexivity|]. cbn [skipn] in H |- *. rewrite (IH k H).
  destruct l; [destruct k; cbn in H; congruence|reflexivity].
Qed.
Lemma zlen_skipn (l : list Z) k : zlen (skipn k l) <= zlen l.
Proof. unfold zlen. rewrite skipn_length. lia. Qed.
Lemma zlen_rev_app (w b : list Z) : zlen (rev w ++ b) = zlen w + zlen b.
Proof. unfold zlen. rewrite app_length, rev_length. lia. Qed.
Lemma zlen_firstn (l : list Z) k : zlen (firstn k l) + zlen (skipn k l) = zlen l.
Proof. rewrite <- (firstn_skipn k l) at 3. unfold zlen. rewrite app_length. lia. Qed.
Lemma scan_ok dot nocase names : all_harmless dot names -> forall m fuel, (fuel <= m)%nat -> forall s params before rest,
  (rest <> [] -> last rest 0 <> 33) -> zlen before + 2 * zlen rest < MAX_LINE_LEN -> 2 * zlen rest < Z.of_nat fuel ->
  exists L n, scan_line fuel dot nocase names s params before rest = Ok (L, n) /\ n <= params + zlen rest.
Proof.
  intros HH. induction m as [|m IH]; intros fuel Hm s params before rest HL HB HF; (destruct fuel as [|fuel]; [pose proof (zlen_nonneg rest); lia|]); [lia|].
  cbn [scan_line]. destruct rest as [|c r].
  { exists (rev before), params. split; [reflexivity|]. rewrite zlen_nil. lia. }
  rewrite zlen_cons in HB, HF. specialize (HL ltac:(discriminate)).
  assert (HLs : forall k, skipn k (c :: r) <> [] -> last (skipn k (c :: r)) 0 <> 33) by (intros k X; rewrite last_skipn by exact X; exact HL).
  destruct (isldigit c) eqn:D.
  { rewrite span_eq. pose proof (zlen_firstn (c :: r) (word_len (c :: r))) as Z1.
    assert (Z2 : 1 <= zlen (firstn (word_len (c :: r)) (c :: r))).
    { cbn [word_len]. unfold idc. rewrite digit_eq in D. rewrite D. cbn [orb firstn]. rewrite zlen_cons. pose proof (zlen_nonneg (firstn (word_len r) r)). lia. }
    rewrite zlen_cons in Z1.
    destruct (IH fuel ltac:(lia) s params (rev (firstn (word_len (c :: r)) (c :: r)) ++ before) (skipn (word_len (c :: r)) (c :: r)) (HLs _)) as (L & n & E & B).
    - rewrite zlen_rev_app. lia.
    - lia.
    - exists L, n. split; [exact E|]. rewrite zlen_cons. lia. }
  match goal with |- context[if ?b then _ else _] => destruct b eqn:W end.
  - rewrite span_eq. set (w := c :: firstn (word_len r) r). set (rest := skipn (word_len r) r).
    pose proof (zlen_firstn r (word_len r)) as Z1. fold rest in Z1. assert (Z2 : zlen w = 1 + zlen (firstn (word_len r) r)) by (unfold w; rewrite zlen_cons; lia).
    pose proof (zlen_nonneg (firstn (word_len r) r)). pose proof (zlen_nonneg rest).
    assert (HLr : rest <> [] -> last rest 0 <> 33) by (exact (HLs (S (word_len r)))).
    assert (K : exists L n, scan_line fuel dot nocase names s params (rev w ++ before) rest = Ok (L, n) /\ n <= params + zlen (c :: r)).
    { destruct (IH fuel ltac:(lia) s params (rev w ++ before) rest HLr) as (L & n & E & B); [rewrite zlen_rev_app; lia|lia|]. exists L, n. split; [exact E|]. rewrite zlen_cons. lia. }
    match goal with |- context[if ?b then _ else _] => destruct b eqn:Q end; [|exact K].
    unfold replace_parm. pose proof (find_text dot nocase names [] 0 HH w) as T. destruct (find_name nocase w names 1) as [i|]; [|exact K].
    destruct T as (T1 & T2 & _). unfold MAX_PLACEHOLDERS. destruct (Z.geb_spec i 256); [lia|].
    destruct ((zlen w =? 1) && negb (at_ before 38) && negb (at_ rest 38)) eqn:S3.
    + apply andb_true_iff in S3 as [S3 _]. apply andb_true_iff in S3 as [S3 _]. apply Z.eqb_eq in S3.
      destruct (Z.gtb_spec (zlen before + 2 + zlen rest + 1) MAX_LINE_LEN) as [X|_]; [unfold MAX_LINE_LEN in *; lia|]. cbn [bindr].
      destruct T1 as [T1|T1]; [|lia]. destruct (inert_facts i T1) as (I1 & I2 & I3 & I4 & I5 & I6).
      destruct fuel as [|fuel]; [lia|]. cbn [scan_line]. rewrite digit_eq, I1, idc_eq, I2. destruct (Z.eqb_spec i 46) as [|_]; [lia|]. cbn [orb andb]. rewrite I6. cbn [bindr app].
      destruct (IH fuel ltac:(lia) s (params + 1) (i :: PLACEHOLDER_CHAR :: before) rest HLr) as (L & n & E & B).
      * rewrite !zlen_cons. unfold MAX_LINE_LEN in *. lia.
      * lia.
      * exists L, n. split; [exact E|]. rewrite zlen_cons. lia.
    + cbn [bindr].
      assert (B1 : zlen (if at_ before 38 then drop1 before else before) = zlen before - (if at_ before 38 then 1 else 0)).
      { destruct before as [|x b]; [reflexivity|]. cbn [at_ drop1]. rewrite zlen_cons. destruct (x =? 38); rewrite ?zlen_cons; lia. }
      assert (B2 : zlen (if at_ rest 38 then drop1 rest else rest) = zlen rest - (if at_ rest 38 then 1 else 0)).
      { destruct rest as [|x b]; [reflexivity|]. cbn [at_ drop1]. rewrite zlen_cons. destruct (x =? 38); rewrite ?zlen_cons; lia. }
      assert (HLd : (if at_ rest 38 then drop1 rest else rest) <> [] -> last (if at_ rest 38 then drop1 rest else rest) 0 <> 33).
      { destruct (at_ rest 38); [|exact HLr]. replace (drop1 rest) with (skipn 1 rest) by (destruct rest; reflexivity). intros X. rewrite last_skipn by exact X. apply HLr. intros Y. rewrite Y in X. apply X. reflexivity. }
      destruct (IH fuel ltac:(lia) s (params + 1) (i :: PLACEHOLDER_CHAR :: (if at_ before 38 then drop1 before else before)) _ HLd) as (L & n & E & B).
      * rewrite !zlen_cons, B1, B2. destruct (at_ before 38), (at_ rest 38); cbn [negb andb] in S3; try rewrite !andb_true_r in S3; try apply Z.eqb_neq in S3; lia.
      * rewrite B2. destruct (at_ rest 38); lia.
      * exists L, n. split; [exact E|]. rewrite zlen_cons. destruct (at_ rest 38); lia.
  - assert (Eo : exists s' sk r', other s c r = Ok (s', sk, r') /\ c :: r = rev sk ++ r' /\ 1 <= zlen sk).
    { unfold other. destruct ((c =? 33) && (quote s =? 0)) eqn:Q.
      - destruct r as [|x r1]; [apply andb_true_iff in Q as [Q _]; apply Z.eqb_eq in Q; cbn in HL; lia|]. destruct (_ || _ || _ || _); do 3 eexists; (split; [reflexivity|]); (split; [reflexivity|]); rewrite ?zlen_cons, zlen_nil; lia.
      - repeat match goal with |- context[if ?b then Ok _ else _] => destruct b end; do 3 eexists; (split; [reflexivity|]); (split; [reflexivity|]); rewrite ?zlen_cons, zlen_nil; lia. }
    destruct Eo as (s' & sk & r' & -> & E2 & Z2). cbn [bindr].
    assert (Z3 : zlen (c :: r) = zlen sk + zlen r') by (rewrite E2; apply zlen_rev_app). rewrite zlen_cons in Z3.
    assert (HLr : r' <> [] -> last r' 0 <> 33).
    { intros X. assert (Y : r' = skipn (length sk) (c :: r)) by (rewrite E2, skipn_app, skipn_all2 by (rewrite rev_length; lia); rewrite rev_length, Nat.sub_diag; reflexivity).
      rewrite Y in X |- *. rewrite last_skipn by exact X. exact HL. }
    destruct (IH fuel ltac:(lia) s' params (sk ++ before) r' HLr) as (L & n & E & B).
    + rewrite zlen_app. lia.
    + lia.
    + exists L, n. split; [exact E|]. rewrite zlen_cons. lia.
Qed.

Lemma seq_map_shift (f : nat -> list Z) a n : map f (seq a n) = map (fun j => f (a + j)%nat) (seq 0 n).
Proof.
  revert f a. induction n as [|n IH]; intros f a; [reflexivity|]. cbn [seq map]. rewrite Nat.add_0_r. f_equal. rewrite (IH f (S a)), (IH _ 1%nat).
  apply map_ext. intros j. f_equal. lia.
Qed.
Lemma combine_app {A B} (a b : list A) : forall (c d : list B), length a = length c -> combine (a ++ b) (c ++ d) = combine a c ++ combine b d.
Proof. induction a as [|x a IH]; intros [|y c] d L; cbn in L; try lia; [reflexivity|]. cbn. f_equal. apply IH. lia. Qed.
Lemma args_vals args : map (fun a : option (list Z) => match a with Some a => a | None => [] end) args = map (fun j => match nth j args None with Some a => a | None => [] end) (seq 0 (length args)).
Proof.
  induction args as [|x l IH]; [reflexivity|]. cbn [length seq map nth]. f_equal. rewrite seq_map_shift. exact IH.
Qed.
Lemma meaning_eq ps locals args ls : length args = length ps -> 0 <= ls -> ls + zlen locals <= 2 ^ 32 ->
  combine (ps ++ locals) (vals args ls (ps ++ locals)) = arguments ps args ++ names_local local_name ls locals.
Proof.
  intros La H0 H1. unfold vals. rewrite app_length, seq_app, map_app. rewrite combine_app by (rewrite map_length, seq_length; reflexivity).
  f_equal; unfold arguments, names_local; f_equal.
  - rewrite args_vals, La. apply map_ext_in. intros j Hj. apply in_seq in Hj. unfold text. destruct (Z.geb_spec (Z.of_nat j + 1 - 1) (zlen args)) as [X|X]; [unfold zlen in X; lia|].
    replace (Z.to_nat (Z.of_nat j + 1 - 1)) with j by lia. reflexivity.
  - rewrite seq_map_shift. apply map_ext_in. intros j Hj. apply in_seq in Hj. unfold text. destruct (Z.geb_spec (Z.of_nat (0 + length ps + j) + 1 - 1) (zlen args)) as [X|X]; [|unfold zlen in X; lia].
    f_equal. replace (ls + (Z.of_nat (0 + length ps + j) + 1 - 1) - zlen args) with (ls + Z.of_nat j) by (unfold zlen; lia).
    apply wrap_small. unfold zlen in H1. lia.
Qed.

Lemma expand_nothing dot nocase : forall f prev s l, (length l < f)%nat -> expand f dot nocase [] prev s l = l.
Proof.
  induction f as [|f IH]; intros prev s l H; [lia|]. destruct l as [|c r]; [reflexivity|]. cbn [length] in H.
  cbn [expand]. destruct (digit c) eqn:D.
  { rewrite IH, firstn_skipn; [reflexivity|]. rewrite skipn_length. cbn [word_len length]. unfold idc. rewrite D. cbn [orb]. pose proof (word_len_le r). lia. }
  unfold value. cbn [find option_map]. destruct (word_here dot prev (c :: r)).
  { cbn [word]. rewrite IH; [cbn [app]; rewrite firstn_skipn; reflexivity|]. rewrite skipn_length. lia. }
  replace (if (c =? 38) && word_here dot (Some 38) r then None else None) with (@None (list Z)) by (destruct (_ && _); reflexivity).
  destruct r as [|x r']; [reflexivity|]. cbn [length] in H. destruct (_ && _ && _); rewrite IH by (cbn [length]; lia); reflexivity.
Qed.

Lemma rel0 : rel scan0 nowhere.
Proof. repeat split. discriminate. Qed.
Lemma store_meaning dot nocase names argv ls line l k : all_harmless dot names -> Forall (fun c => c <> 10) line ->
  store_placeholders dot nocase names line = Ok (l, k) ->
  fill_placeholders argv ls l = Ok (expansion dot nocase (combine names (vals argv ls names)) line) /\ 0 <= k /\ (k = 0 -> l = line).
Proof.
  intros H F E. unfold store_placeholders in E. destruct (_ >? _); [discriminate|]. split.
  - apply (scan_main dot nocase names argv ls H (Z.to_nat MAX_LINE_LEN) (Z.to_nat MAX_LINE_LEN) (le_n _) scan0 0 [] line l k nowhere [] None [] []); try assumption.
    + apply rel0.
    + left. repeat split.
    + reflexivity.
    + reflexivity.
  - apply scan_count in E. cbn [rev app] in E. exact E.
Qed.
Theorem expands_long dot nocase ps locals args ls line l k : all_harmless dot (ps ++ locals) -> length args = length ps -> 0 <= ls -> ls + zlen locals <= 2 ^ 32 ->
  Forall (fun c => c <> 10) line -> store_placeholders dot nocase (ps ++ locals) line = Ok (l, k) -> k < 256 ->
  let e := expansion dot nocase (arguments ps args ++ names_local local_name ls locals) line in
  GetTextLine args ls l (wrap 8 k) = if zlen e <? 1024 then Ok e else UB.
Proof.
  intros H La H0 H1 F E K e. destruct (store_meaning dot nocase (ps ++ locals) args ls line l k H F E) as (A & B & C).
  rewrite meaning_eq in A by assumption. fold e in A. unfold GetTextLine. rewrite wrap_small by lia.
  assert (X : (if k =? 0 then Ok l else fill_placeholders args ls l) = Ok e).
  { destruct (Z.eqb_spec k 0) as [Z|Z]; [|exact A]. rewrite (C Z) in *. rewrite fill_plain in A by exact F. exact A. }
  rewrite X. cbn [bindr]. unfold MAX_LINE_LEN. destruct (Z.gtb_spec (zlen e + 1) 1024), (Z.ltb_spec (zlen e) 1024); try lia; reflexivity.
Qed.
Theorem expands dot nocase ps locals line : all_harmless dot (ps ++ locals) -> Forall (fun c => c <> 10) line -> zlen line <= 255 -> (line <> [] -> last line 0 <> 33) ->
  exists l n, stored dot nocase (ps ++ locals) line = Ok (l, n) /\
  forall args ls, length args = length ps -> 0 <= ls -> ls + zlen locals <= 2 ^ 32 ->
  let e := expansion dot nocase (arguments ps args ++ names_local local_name ls locals) line in
  GetTextLine args ls l n = if zlen e <? 1024 then Ok e else UB.
Proof.
  intros H F L HL. unfold stored. destruct (ps ++ locals) as [|n0 names] eqn:En.
  { exists line, 0. split; [reflexivity|]. apply app_eq_nil in En as [-> ->]. intros args ls La H0 H1.
    assert (Ee : expansion dot nocase (arguments [] args ++ names_local local_name ls []) line = line) by (unfold expansion, arguments, names_local; cbn [combine app length seq map]; apply expand_nothing; lia).
    rewrite Ee. unfold GetTextLine. cbn [Z.eqb bindr]. unfold MAX_LINE_LEN. destruct (Z.gtb_spec (zlen line + 1) 1024), (Z.ltb_spec (zlen line) 1024); try lia; reflexivity. }
  rewrite <- En in H |- *. destruct (scan_ok dot nocase (ps ++ locals) H (Z.to_nat MAX_LINE_LEN) (Z.to_nat MAX_LINE_LEN) (le_n _) scan0 0 [] line HL) as (l & k & E & B).
  - rewrite zlen_nil. unfold MAX_LINE_LEN. lia.
  - unfold MAX_LINE_LEN. rewrite Z2Nat.id; lia.
  - assert (E2 : store_placeholders dot nocase (ps ++ locals) line = Ok (l, k)).
    { unfold store_placeholders. destruct (Z.gtb_spec (zlen line + 1) MAX_LINE_LEN); [unfold MAX_LINE_LEN in *; lia|exact E]. }
    exists l, (wrap 8 k). rewrite E2. split; [reflexivity|]. intros args ls La H0 H1. apply expands_long; try assumption. lia.
Qed.

(** locals *)
Lemma hexdigit_val x : hexval (HexDigit x) = Some (x mod 16).
Proof.
  unfold HexDigit, hexval, digit. pose proof (Z.mod_pos_bound x 16 ltac:(lia)) as B. set (d := x mod 16) in *. clearbody d.
  destruct (Z.gtb_spec d 9).
  - destruct (Z.leb_spec 48 (d - 10 + 65)), (Z.leb_spec (d - 10 + 65) 57), (Z.leb_spec 65 (d - 10 + 65)), (Z.leb_spec (d - 10 + 65) 70); try lia; cbn; f_equal; lia.
  - destruct (Z.leb_spec 48 (d + 48)), (Z.leb_spec (d + 48) 57); try lia; cbn; f_equal; lia.
Qed.
Lemma hexnum_snoc l d a : hexnum l = Some a -> hexnum (l ++ [HexDigit d]) = Some (16 * a + d mod 16).
Proof. intros H. unfold hexnum in *. rewrite fold_left_app, H. cbn [fold_left]. rewrite hexdigit_val. reflexivity. Qed.
Lemma hex_upper_val : forall f n, 0 <= n < 16 ^ Z.of_nat f -> hexnum (hex_upper f n) = Some n \/ f = 0%nat.
Proof.
  induction f as [|f IH]; intros n H; [right; reflexivity|left]. cbn [hex_upper]. rewrite Nat2Z.inj_succ, Z.pow_succ_r in H by lia.
  destruct (Z.ltb_spec n 16).
  - cbn [app]. change (hexnum [HexDigit n]) with (hexnum ([] ++ [HexDigit n])). rewrite (hexnum_snoc [] n 0) by reflexivity. f_equal. rewrite Z.mod_small; lia.
  - destruct (IH (n / 16)) as [E| ->].
    + split; [apply Z.div_pos; lia|]. apply Z.div_lt_upper_bound; lia.
    + rewrite (hexnum_snoc _ n _ E). f_equal. pose proof (Z.div_mod n 16). lia.
    + cbn in H. lia.
Qed.
Lemma hex_upper_len : forall k f n, (k < f)%nat -> 16 ^ Z.of_nat k <= n -> Z.of_nat k + 1 <= zlen (hex_upper f n).
Proof.
  induction k as [|k IH]; intros [|f] n H1 H2; try lia; cbn [hex_upper]; rewrite zlen_app; change (zlen [HexDigit n]) with 1.
  - pose proof (zlen_nonneg (if n <? 16 then [] else hex_upper f (n / 16))). lia.
  - rewrite Nat2Z.inj_succ, Z.pow_succ_r in H2 by lia. assert (P : 0 < 16 ^ Z.of_nat k) by (apply Z.pow_pos_nonneg; lia).
    destruct (Z.ltb_spec n 16); [lia|]. specialize (IH f (n / 16) ltac:(lia) ltac:(apply Z.div_le_lower_bound; lia)). lia.
Qed.
Lemma local_name_val i : 0 <= i < 2 ^ 32 -> exists ds, local_name i = 63 :: 63 :: ds /\ hexnum ds = Some i /\ 4 <= zlen ds.
Proof.
  intros H. unfold local_name. destruct (Z.gtb_spec i 0xFFFF) as [X|X]; eexists; (split; [reflexivity|]).
  - split. { destruct (hex_upper_val 8 i); [change (16 ^ Z.of_nat 8) with (2 ^ 32); lia|assumption|discriminate]. }
    apply (hex_upper_len 3 8 i); [lia|change (16 ^ Z.of_nat 3) with 4096; lia].
  - split; [|rewrite !zlen_cons, zlen_nil; lia]. rewrite !Z.shiftr_div_pow2 by lia.
    change [HexDigit (i / 2 ^ 12); HexDigit (i / 2 ^ 8); HexDigit (i / 2 ^ 4); HexDigit i] with (((([] ++ [HexDigit (i / 2 ^ 12)]) ++ [HexDigit (i / 2 ^ 8)]) ++ [HexDigit (i / 2 ^ 4)]) ++ [HexDigit i]).
    rewrite (hexnum_snoc _ i (16 * (16 * (16 * 0 + (i / 2 ^ 12) mod 16) + (i / 2 ^ 8) mod 16) + (i / 2 ^ 4) mod 16)).
    + f_equal. change (2 ^ 12) with 4096. change (2 ^ 8) with 256. change (2 ^ 4) with 16. lia.
    + do 3 apply hexnum_snoc. reflexivity.
Qed.
Lemma local_name_inj i j : 0 <= i < 2 ^ 32 -> 0 <= j < 2 ^ 32 -> local_name i = local_name j -> i = j.
Proof.
  intros Hi Hj E. destruct (local_name_val i Hi) as (a & A & B & _), (local_name_val j Hj) as (b & C & D & _).
  assert (a = b) by congruence. subst b. congruence.
Qed.
Lemma NoDup_map_in (f : Z -> list Z) l : (forall x y, In x l -> In y l -> f x = f y -> x = y) -> NoDup l -> NoDup (map f l).
Proof.
  intros H N. induction N as [|x l Hn N IH]; cbn; constructor.
  - intros X. apply in_map_iff in X as (y & E & Y). apply H in E; [subst; contradiction|right; exact Y|left; reflexivity].
  - apply IH. intros; apply H; try right; assumption.
Qed.
Definition numbers (start : Z) (counts : list Z) : list Z := flat_map (fun '(s, n) => map (fun k => s + Z.of_nat k) (seq 0 (Z.to_nat n))) (combine (localstarts start counts) counts).
Lemma numbers_range counts : forall start, Forall (fun n => 0 <= n) counts -> NoDup (numbers start counts) /\ Forall (fun x => start <= x < start + fold_right Z.add 0 counts) (numbers start counts).
Proof.
  unfold numbers. induction counts as [|n counts IH]; intros start H; [split; constructor|]. apply Forall_cons_iff in H as [H1 H2]. cbn [localstarts combine flat_map fold_right].
  destruct (IH (start + n) H2) as [N R]. set (q := flat_map _ _) in *. clearbody q.
  assert (R0 : Forall (fun x => start <= x < start + n) (map (fun k => start + Z.of_nat k) (seq 0 (Z.to_nat n)))).
  { apply Forall_forall. intros x X. apply in_map_iff in X as (k & <- & K). apply in_seq in K. lia. }
  assert (S0 : 0 <= fold_right Z.add 0 counts) by (clear -H2; induction H2; cbn; lia).
  split.
  - assert (N0 : NoDup (map (fun k => start + Z.of_nat k) (seq 0 (Z.to_nat n)))).
    { generalize (seq_NoDup (Z.to_nat n) 0). generalize (seq 0 (Z.to_nat n)). clear. intros l N. induction N as [|x l Hn N IH]; cbn; constructor; [|exact IH].
      intros X. apply in_map_iff in X as (y & E & Y). assert (y = x) by lia. subst. contradiction. }
    revert N0 R0. generalize (map (fun k => start + Z.of_nat k) (seq 0 (Z.to_nat n))). intros l N0 R0. induction N0 as [|x l Hn N0 IH0]; [exact N|]. apply Forall_cons_iff in R0 as [X0 R0]. cbn [app]. constructor; [|apply IH0; exact R0].
    intros X. apply in_app_or in X as [X|X]; [contradiction|]. pose proof (proj1 (Forall_forall _ _) R _ X) as Y. cbn in Y. lia.
  - apply Forall_app. split; (eapply Forall_impl; [|eassumption]); cbn; lia.
Qed.
Theorem locals_distinct start counts : 0 <= start -> Forall (fun n => 0 <= n) counts -> start + fold_right Z.add 0 counts <= 2 ^ 32 ->
  NoDup (all_locals local_name (localstarts start counts) counts).
Proof.
  intros H0 H1 H2. destruct (numbers_range counts start H1) as [N R].
  replace (all_locals local_name (localstarts start counts) counts) with (map local_name (numbers start counts)).
  - apply NoDup_map_in; [|exact N]. intros x y X Y. apply local_name_inj; [pose proof (proj1 (Forall_forall _ _) R _ X)|pose proof (proj1 (Forall_forall _ _) R _ Y)]; cbn in *; lia.
  - unfold numbers, all_locals. generalize (combine (localstarts start counts) counts). induction l as [|[s n] l IH]; [reflexivity|]. cbn [flat_map]. rewrite map_app, IH, map_map. reflexivity.
Qed.
