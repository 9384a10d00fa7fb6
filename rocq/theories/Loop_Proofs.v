(** Proofs about loops. *)
From Coq Require Import ZArith List Bool Lia.
From Verif Require Import Base Loop_Model Loop_Spec.
Import ListNotations.
Open Scope Z_scope.

Lemma swrap_in : forall x, - 2 ^ 31 <= x < 2 ^ 31 -> swrap 32 x = x.
Proof. intros x H. unfold swrap, wrap. change (2 ^ 32) with 4294967296. change (2 ^ (32 - 1)) with 2147483648. change (2 ^ 31) with 2147483648 in H.
  destruct (Z.ltb_spec (x mod 4294967296) 2147483648); destruct (Z.lt_ge_cases x 0) as [N|N].
  - rewrite <- (Z.mod_add x 1 4294967296) in * by lia. rewrite Z.mod_small in * by lia. lia.
  - rewrite Z.mod_small in * by lia. lia.
  - rewrite <- (Z.mod_add x 1 4294967296) in * by lia. rewrite Z.mod_small in * by lia. lia.
  - rewrite Z.mod_small in * by lia. lia.
Qed.

Section S.
  Context {A : Type} (body : A -> list Z -> Z -> A * bool).

  Lemma runs_fun : forall l v s t t', runs body l v s t -> runs body l v s t' -> t = t'.
  Proof.
    intros l v s t t' H. revert t'. induction H as [v s|a l v s s' E|a l v s s' t E H IH]; intros t' H'; inversion H'; subst; try congruence.
    apply IH. replace s' with s'0 by congruence. assumption.
  Qed.

  Lemma repeat_runs : forall k n v s, 0 <= v -> n < 2 ^ 31 -> n - v < Z.of_nat k -> runs body (repeat [] (Z.to_nat (n - v))) v s (repeat_loop body k n v s).
  Proof.
    induction k as [|k IH]; intros n v s V N H; cbn [repeat_loop].
    - replace (Z.to_nat (n - v)) with 0%nat by lia. constructor.
    - destruct (Z.ltb_spec v n); [|replace (Z.to_nat (n - v)) with 0%nat by lia; constructor].
      replace (Z.to_nat (n - v)) with (S (Z.to_nat (n - (v + 1)))) by lia. cbn [repeat].
      destruct (body s [] v) as [s' e] eqn:E. destruct e; [apply runs_exit; exact E|].
      apply (runs_step body [] _ v s s' _ E). change (2 ^ 31) with 2147483648 in *. rewrite swrap_in by (change (2 ^ 31) with 2147483648; lia). apply IH; lia.
  Qed.

  Theorem repeat_ok : forall n s, - 2 ^ 31 <= n < 2 ^ 31 -> runs body (repeat [] (Z.to_nat n)) 0 s (REPEAT body n s).
  Proof.
    intros n s H. unfold REPEAT. rewrite swrap_in by exact H. replace (Z.to_nat n) with (Z.to_nat (n - 0)) at 1 by (f_equal; lia).
    apply repeat_runs; lia.
  Qed.

  Lemma while_whiles : forall eval, (forall s c, eval s = Some c -> - 2 ^ 31 <= c < 2 ^ 31) ->
    forall k c v s t, 0 <= v -> v + Z.of_nat k < 2 ^ 31 -> (forall x, c = Some x -> - 2 ^ 31 <= x < 2 ^ 31) ->
    while_loop body eval k c v s = Some t -> exists n, (n <= k)%nat /\ whiles body eval n c v s t.
  Proof.
    intros eval EV. induction k as [|k IH]; intros c v s t V B C H; cbn [while_loop] in H; [discriminate|].
    destruct c as [c|]; [|injection H as <-; exists 0%nat; split; [lia|constructor]]. rewrite swrap_in in H by (apply C; reflexivity).
    destruct (Z.eqb_spec c 0) as [->|N]; [injection H as <-; exists 0%nat; split; [lia|constructor]|]. destruct (body s [] v) as [s' e] eqn:E.
    destruct e; [injection H as <-; exists 1%nat; split; [lia|apply whiles_exit; assumption]|]. change (2 ^ 31) with 2147483648 in B. rewrite swrap_in in H by (change (2 ^ 31) with 2147483648; lia).
    destruct (IH (eval s') (v + 1) s' t) as (n & L & W); [lia|change (2 ^ 31) with 2147483648; lia|intros x X; apply (EV s' x X)|exact H|].
    exists (S n). split; [lia|]. apply (whiles_step body eval n c v s s' t N E W).
  Qed.

  Lemma whiles_while : forall eval, (forall s c, eval s = Some c -> - 2 ^ 31 <= c < 2 ^ 31) ->
    forall n c v s t, whiles body eval n c v s t -> 0 <= v -> v + Z.of_nat n < 2 ^ 31 -> (forall x, c = Some x -> - 2 ^ 31 <= x < 2 ^ 31) ->
    forall k, (n < k)%nat -> while_loop body eval k c v s = Some t.
  Proof.
    intros eval EV n c v s t H. induction H as [v s|v s|c v s s' N E|n c v s s' t N E H IH]; intros V B C k K; (destruct k as [|k]; [lia|]); cbn [while_loop].
    - reflexivity.
    - reflexivity.
    - rewrite swrap_in by (apply C; reflexivity). destruct (Z.eqb_spec c 0); [contradiction|]. rewrite E. reflexivity.
    - change (2 ^ 31) with 2147483648 in B.
      rewrite swrap_in by (apply C; reflexivity). destruct (Z.eqb_spec c 0); [contradiction|]. rewrite E.
      rewrite swrap_in by (change (2 ^ 31) with 2147483648; lia). apply IH; [lia|change (2 ^ 31) with 2147483648; lia|intros x X; apply (EV s' x X)|lia].
  Qed.

  Lemma space_ok : forall c, isspace c = true <-> In c [9; 10; 11; 12; 13; 32].
  Proof.
    intro c. unfold isspace. rewrite orb_true_iff, andb_true_iff, Z.eqb_eq, !Z.leb_le. cbn. lia.
  Qed.

  Lemma token_bang : forall c s v, c <> 0 -> run_token body s [33; c; 0] 2 v = Ok (body s [c] v).
  Proof.
    intros c s v N. unfold run_token, passed. cbn [trim nth]. apply Z.eqb_neq in N. destruct (isspace c).
    - change (isspace 33) with false. cbv iota. cbn [copy nth]. cbn. rewrite N. reflexivity.
    - cbn. rewrite N. reflexivity.
  Qed.

  Lemma token_plain : forall c s v, c <> 0 -> c <> 33 -> isspace c = false -> run_token body s [c; 0; 0] 1 v = Ok (body s [c] v).
  Proof.
    intros c s v N M S. unfold run_token, passed. cbn [trim nth]. rewrite S. apply Z.eqb_neq in N, M. cbn. rewrite M. cbn. rewrite N. reflexivity.
  Qed.

  Lemma forc_ok : forall l cs, spells l cs -> ~ In 0 cs -> forall v s, 0 <= v -> v + zlen cs < 2 ^ 31 ->
    exists t, FORC_loop body l v s = Ok t /\ runs body (map (fun c => [c]) cs) v s t.
  Proof.
    intros l cs H. induction H as [|c l cs N H IH|c l cs H IH]; intros Z0 v s V B.
    - exists s. split; [reflexivity|constructor].
    - change (zlen (c :: cs)) with (Z.of_nat (S (length cs))) in B. assert (B' : v + 1 + zlen cs < 2 ^ 31) by (unfold zlen; lia).
      assert (C0 : c <> 0) by (intros ->; apply Z0; left; reflexivity). assert (Z1 : ~ In 0 cs) by (intro I; apply Z0; right; exact I).
      cbn [FORC_loop]. destruct (Z.eqb_spec c 33); [contradiction|].
      replace (if isspace c then run_token body s [33; c; 0] 2 v else run_token body s [c; 0; 0] 1 v) with (Ok (body s [c] v))
        by (destruct (isspace c) eqn:S; [rewrite token_bang by exact C0|rewrite token_plain by assumption]; reflexivity).
      assert (SV : swrap 32 (v + 1) = v + 1) by (apply swrap_in; unfold zlen in B'; lia).
      cbn [bindr map]. destruct (body s [c] v) as [s' e] eqn:E. rewrite SV. destruct e; [exists s'; split; [reflexivity|apply runs_exit; exact E]|].
      destruct (IH Z1 (v + 1) s' ltac:(lia) B') as (t & F & R). exists t. split; [exact F|]. apply (runs_step body [c] _ v s s' t E R).
    - change (zlen (c :: cs)) with (Z.of_nat (S (length cs))) in B. assert (B' : v + 1 + zlen cs < 2 ^ 31) by (unfold zlen; lia).
      assert (C0 : c <> 0) by (intros ->; apply Z0; left; reflexivity). assert (Z1 : ~ In 0 cs) by (intro I; apply Z0; right; exact I).
      cbn [FORC_loop]. change (33 =? 33) with true. cbv iota. rewrite token_bang by exact C0.
      assert (SV : swrap 32 (v + 1) = v + 1) by (apply swrap_in; unfold zlen in B'; lia).
      cbn [bindr map]. destruct (body s [c] v) as [s' e] eqn:E. rewrite SV. destruct e; [exists s'; split; [reflexivity|apply runs_exit; exact E]|].
      destruct (IH Z1 (v + 1) s' ltac:(lia) B') as (t & F & R). exists t. split; [exact F|]. apply (runs_step body [c] _ v s s' t E R).
  Qed.
End S.

Lemma text_ok : forall l, exists r, l = forc_text l ++ r /\ (forall c, In c (forc_text l) -> ~ In c [9; 10; 11; 12; 13; 32]) /\
  match r with [] => True | c :: _ => In c [9; 10; 11; 12; 13; 32] end.
Proof.
  induction l as [|c l (r & E & P & R)]; [exists []; cbn; tauto|]. cbn [forc_text]. destruct (isspace c) eqn:S.
  - exists (c :: l). split; [reflexivity|]. split; [intros x []|apply space_ok; exact S].
  - exists r. split; [cbn; rewrite <- E; reflexivity|]. split; [|exact R]. intros x [<-|I]; [|apply P; exact I].
    intro H. apply space_ok in H. congruence.
Qed.

(** ** FOR *)

Lemma span_items : forall a e, match e with Item _ :: _ => False | _ => True end -> span (map Item a ++ e) = (a, e).
Proof.
  induction a as [|t a IH]; intros e H; cbn [map app span].
  - destruct e as [|[|t] e]; [reflexivity|reflexivity|contradiction].
  - rewrite IH by exact H. reflexivity.
Qed.

Lemma last_app : forall (B : Type) (a b : list B) d, b <> [] -> last (a ++ b) d = last b d.
Proof. induction a as [|x a IH]; intros b d H; [reflexivity|]. cbn [app last]. rewrite IH by exact H. destruct (a ++ b) eqn:E; [|reflexivity]. apply app_eq_nil in E. tauto. Qed.

Lemma last_items : forall a, last (map Item a) (Item []) <> Comma.
Proof. induction a as [|t [|u a] IH]; [discriminate|discriminate|exact IH]. Qed.

Lemma listing_some : forall args l, listing args l -> args <> [].
Proof. intros args l H. destruct H; discriminate. Qed.

Lemma listing_last : forall args l, listing args l -> last args [] <> [] -> last l (Item []) <> Comma.
Proof.
  intros args l H. induction H as [a|a args l H IH]; intro N; [apply last_items|].
  rewrite last_app by discriminate. assert (L : last args [] <> []) by (pose proof (listing_some _ _ H); destruct args; [contradiction|exact N]).
  specialize (IH L). destruct l as [|x l]; [|exact IH]. exfalso. inversion H; subst; [|destruct a0; discriminate]. destruct a0; [contradiction|discriminate].
Qed.

Lemma listing_more_last : forall args l a, listing args l -> listing (args ++ [a]) (l ++ Comma :: map Item a).
Proof.
  intros args l a H. induction H as [b|b args l H IH]; cbn [app].
  - apply listing_more, listing_one.
  - rewrite <- app_assoc. cbn [app]. apply listing_more, IH.
Qed.

Lemma listing_len : forall args l, listing args l -> (length args <= S (length l))%nat.
Proof. intros args l H. induction H as [a|a args l H IH]; cbn [length]; [lia|]. rewrite app_length. cbn [length]. lia. Qed.

Section For.
  Context {A : Type} (body : A -> list Z -> Z -> A * bool) (req : bool) (dflt : list Z).

  Lemma for_arg_ok : forall a, (req = true -> a <> []) -> for_arg req dflt a = Ok (meant dflt a).
  Proof. intros [|t a] H; [|reflexivity]. cbn. destruct req; [contradiction H; reflexivity|reflexivity]. Qed.

  (** [e]: nothing or a last comma. *)
  Lemma for_runs : forall args l, listing args l -> forall e v s k, (e = [Comma] \/ e = [] /\ last args [] <> []) -> (req = true -> ~ In [] args) ->
    0 <= v -> v + zlen args < 2 ^ 31 -> (length (l ++ e) < k)%nat ->
    exists t, FOR_loop body req dflt k (l ++ e) v s = Ok t /\ runs body (map (meant dflt) args) v s t.
  Proof.
    intros args l H. induction H as [a|a args l H IH]; intros e v s k E R V B K; (destruct k as [|k]; [lia|]).
    - assert (NE : map Item a ++ e <> []).
      { destruct E as [->|[-> N]]; intro X; apply app_eq_nil in X; destruct X as [X Y]; [discriminate|]. destruct a; [contradiction|discriminate]. }
      cbn [FOR_loop]. destruct (map Item a ++ e) as [|x q] eqn:Q; [contradiction|]. rewrite <- Q in *. clear Q.
      rewrite span_items by (destruct E as [->|[-> _]]; exact I). rewrite for_arg_ok by (intros Q X; apply (R Q); left; exact X). cbn [bindr map].
      destruct (body s (meant dflt a) v) as [s' ex] eqn:BE. destruct ex; [exists s'; split; [reflexivity|apply runs_exit; exact BE]|].
      exists s'. split.
      + destruct k as [|k].
        * exfalso. destruct E as [->|[-> N]]; rewrite app_length in K; cbn in K; [lia|]. destruct a; [contradiction|cbn in K; lia].
        * destruct E as [->|[-> _]]; reflexivity.
      + apply (runs_step body _ [] v s s' s' BE). constructor.
    - rewrite <- app_assoc in *. cbn [app] in *. rewrite app_length in K. cbn [length] in K.
      assert (B' : v + 1 + zlen args < 2 ^ 31) by (unfold zlen in *; cbn [length] in B; lia).
      cbn [FOR_loop]. destruct (map Item a ++ Comma :: l ++ e) as [|x q] eqn:Q; [apply app_eq_nil in Q; destruct Q; discriminate|]. rewrite <- Q. clear Q.
      rewrite span_items by exact I. rewrite for_arg_ok by (intros Q X; apply (R Q); left; exact X). cbn [bindr map tl].
      destruct (body s (meant dflt a) v) as [s' ex] eqn:BE. destruct ex; [exists s'; split; [reflexivity|apply runs_exit; exact BE]|].
      rewrite swrap_in by (unfold zlen in B'; lia).
      destruct (IH e (v + 1) s' k) as (t & F & T).
      + destruct E as [E|[E N]]; [left; exact E|right; split; [exact E|]]. pose proof (listing_some _ _ H). destruct args; [contradiction|exact N].
      + intros Q X. apply (R Q). right. exact X.
      + lia.
      + exact B'.
      + lia.
      + exists t. split; [exact F|]. apply (runs_step body _ _ v s s' t BE T).
  Qed.

  Theorem for_ok : forall args l white s, listing args l -> last args [] <> [] -> (req = true -> ~ In [] args) -> zlen args < 2 ^ 31 ->
    exists t, FOR body req dflt l white s = Ok t /\ runs body (map (meant dflt) args) 0 s t.
  Proof.
    intros args l white s H N R B. unfold FOR. pose proof (listing_last _ _ H N) as L. destruct (last l (Item [])) as [|x]; [contradiction|].
    destruct (for_runs args l H [] 0 s (S (length l))) as (t & F & T); [right; split; [reflexivity|exact N]|exact R|lia|lia|rewrite app_nil_r; lia|].
    rewrite app_nil_r in F. exists t. split; assumption.
  Qed.

  Theorem for_comma : forall args l s, listing args l -> (req = true -> ~ In [] args) -> zlen args + 1 < 2 ^ 31 ->
    (exists t, FOR body req dflt (l ++ [Comma]) false s = Ok t /\ runs body (map (meant dflt) args) 0 s t) /\
    (exists t, FOR body req dflt (l ++ [Comma]) true s = Ok t /\ runs body (map (meant dflt) args ++ [[]]) 0 s t).
  Proof.
    intros args l s H R B. unfold FOR. rewrite last_app by discriminate. cbn [last]. split.
    - apply (for_runs args l H [Comma] 0 s); [left; reflexivity|exact R|lia|lia|lia].
    - rewrite <- app_assoc. cbn [app]. pose proof (listing_more_last args l [[]] H) as H'. cbn [map] in H'.
      destruct (for_runs _ _ H' [] 0 s (S (length (l ++ [Comma; Item []])))) as (t & F & T).
      + right. split; [reflexivity|]. rewrite last_app by discriminate. discriminate.
      + intros Q X. apply in_app_or in X. destruct X as [X|[X|[]]]; [apply (R Q X)|discriminate].
      + lia.
      + unfold zlen in *. rewrite app_length. cbn [length]. lia.
      + rewrite app_nil_r. lia.
      + rewrite app_nil_r in F. rewrite map_app in T. cbn in T. exists t. split; assumption.
  Qed.
End For.

Lemma for_err : forall A (body : A -> list Z -> Z -> A * bool) dflt, (forall s a v, snd (body s a v) = false) ->
  forall args l, listing args l -> last args [] <> [] -> In [] args -> forall v s k, (length l < k)%nat -> FOR_loop body true dflt k l v s = Err.
Proof.
  intros A body dflt X args l H. induction H as [a|a args l H IH]; intros N I v s k K.
  - destruct I as [->|[]]. contradiction N. reflexivity.
  - destruct k as [|k]; [lia|]. rewrite app_length in K. cbn [length] in K.
    cbn [FOR_loop]. destruct (map Item a ++ Comma :: l) as [|x q] eqn:Q; [apply app_eq_nil in Q; destruct Q; discriminate|]. rewrite <- Q. clear Q.
    rewrite span_items by exact Logic.I. destruct a as [|u a]; [reflexivity|]. cbn [for_arg bindr tl].
    specialize (X s (concat (u :: a)) v). destruct (body s (concat (u :: a)) v) as [s' ex]. cbn in X. subst ex.
    apply IH; [pose proof (listing_some _ _ H); destruct args; [contradiction|exact N]|destruct I as [I|I]; [discriminate|exact I]|lia].
Qed.
