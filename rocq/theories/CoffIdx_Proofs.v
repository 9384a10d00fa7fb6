(** C16: the indices given to symbols are their places in the symbol table. *)
From Verif Require Import Base Coff_Model Coff_Spec CoffStr_Proofs CoffSym_Proofs CoffEnt_Proofs CoffPub_Proofs Data_Proofs.
From Coq Require Import Lia.

Lemma xfile_size name : xsize (x_file name) = 1 + aux_entries name.
Proof. unfold xsize, x_file. cbn [x_aux]. destruct (pieces_spec (length name) name (le_n _)) as (_ & P & _). unfold zlen in *. rewrite map_length. lia. Qed.
Lemma aux_entries_nonneg name : 0 <= aux_entries name.
Proof. unfold aux_entries. pose proof (zlen_nonneg name). pose proof (Z.div_pos (zlen name) 18 ltac:(lia) ltac:(lia)). destruct (_ =? 0); lia. Qed.

Ltac xsz := unfold xsize; cbn [x_sym x_func x_aux];
  repeat match goal with |- context [zlen [?a]] => change (zlen [a]) with 1 | |- context [zlen (@nil xaux)] => change (zlen (@nil xaux)) with 0 end.
(** * externals *)
Definition xext (m : module) (e : nat) : xentry := x_sym m e (if weak_ext (sym m e) then [XWeak (y_alt (sym m e)) 2] else []).
Definition xexts (m : module) (es : list nat) : list xentry := map (xext m) (filter (fun e => negb (skipped (sym m e))) es).
Lemma ext_indices_spec m : forall es i idx i' idx', ext_indices m es i idx = (i', idx') ->
  i' = i + xsizes (xexts m es) /\ (forall n, ~ In n es -> idx' n = idx n) /\
  forall n, In n es -> skipped (sym m n) = false -> exists a b, xexts m es = a ++ xext m n :: b /\ idx' n = i + xsizes a.
Proof.
  induction es as [|e es IH]; intros i idx i' idx' E; cbn [ext_indices] in E.
  - injection E as <- <-. split; [cbn; lia|]. split; [reflexivity|]. intros n [].
  - unfold xexts. cbn [filter]. destruct (skipped (sym m e)) eqn:Sk; cbn [negb].
    + apply IH in E as (E1 & E2 & E3). split; [exact E1|]. split; [intros n N; apply E2; cbn in N; tauto|]. intros n [->|I'] Sn; [congruence|]. now apply E3.
    + apply IH in E as (E1 & E2 & E3). cbn [map]. fold (xexts m es).
      assert (Sz : xsize (xext m e) = if weak_ext (sym m e) then 2 else 1) by (unfold xsize, xext, x_sym; cbn [x_aux]; destruct (weak_ext _); reflexivity).
      split. { rewrite E1. cbn [xsizes fold_right]. fold (xsizes (xexts m es)). lia. }
      split. { intros n N. rewrite E2 by (cbn in N; tauto). unfold set. destruct (Nat.eqb_spec n e) as [->|]; [|reflexivity]. exfalso. apply N. now left. }
      intros n I' Sn. destruct (in_dec Nat.eq_dec n es) as [J|J].
      * destruct (E3 n J Sn) as (a & b & Q & V). exists (xext m e :: a), b. split; [cbn [app]; now rewrite Q|]. rewrite V. cbn [xsizes fold_right]. fold (xsizes a). lia.
      * destruct I' as [->|I']; [|contradiction]. exists [], (xexts m es). split; [reflexivity|]. rewrite E2 by assumption. unfold set. rewrite Nat.eqb_refl. cbn. lia.
Qed.

(** * static procedures *)
Lemma existsb_In n l : existsb (Nat.eqb n) l = true <-> In n l.
Proof. rewrite existsb_exists. split. - intros (x & X & E). apply Nat.eqb_eq in E. now subst. - intros X. exists n. split; [assumption|apply Nat.eqb_refl]. Qed.
Lemma existsb_notIn n l : existsb (Nat.eqb n) l = false <-> ~ In n l.
Proof. rewrite <- existsb_In. destruct (existsb _ _); split; congruence. Qed.
Lemma static_spec m : forall ps inc pub seen inc' pub', (forall n, inc n = y_included (sym m n) || existsb (Nat.eqb n) seen) -> NoDup (seen ++ filter (private m) ps) ->
  static_procs m ps inc pub = (inc', pub') -> pub' = pub ++ filter (private m) ps /\ forall n, inc' n = y_included (sym m n) || existsb (Nat.eqb n) (seen ++ filter (private m) ps).
Proof.
  induction ps as [|p ps IH]; intros inc pub seen inc' pub' I' N E; cbn [static_procs filter] in *.
  - injection E as <- <-. rewrite !app_nil_r. split; [reflexivity|assumption].
  - destruct (private m p) eqn:P.
    + unfold private in P. apply andb_prop in P as [P P3]. apply andb_prop in P as [P1 P2]. rewrite P1, P2, I' in E.
      replace (existsb (Nat.eqb p) seen) with false in E. 2: { symmetry. apply existsb_notIn. intros Q. apply NoDup_remove_2 in N. apply N. apply in_or_app. now left. }
      rewrite orb_false_r in E. rewrite P3 in E. cbn [andb] in E.
      apply (IH _ _ (seen ++ [p])) in E.
      * rewrite <- !app_assoc in E. exact E.
      * intros n. unfold set. rewrite existsb_app, I'. cbn [existsb]. destruct (Nat.eqb_spec n p); [subst|]; rewrite ?orb_true_r, ?orb_false_r; reflexivity.
      * rewrite <- app_assoc. exact N.
    + replace (is_internal (sym m p) && negb (y_public (sym m p)) && negb (inc p)) with false in E. { eapply IH; eauto. }
      symmetry. unfold private in P. rewrite I'. destruct (is_internal (sym m p)), (y_public (sym m p)), (y_included (sym m p)); try reflexivity. discriminate.
Qed.

(** * the queue *)
Lemma placed_cong m c c' : forall q file i, (forall n, In n q -> c n = c' n) -> placed m c q file i -> placed m c' q file i.
Proof.
  induction q as [|p q IH]; intros file i H P; cbn [placed] in *; [exact Logic.I|]. cbn zeta in *.
  destruct (lines_on (m_opt m) && y_proc (sym m p)); destruct P as [P1 P2]; (split; [rewrite <- H by (now left); assumption|]); apply IH; auto; intros n N; apply H; now right.
Qed.
Definition plain (m : module) (n : nat) : Prop := lines_on (m_opt m) && y_proc (sym m n) = false.
Lemma x_pubs_snoc m n : plain m n -> forall q file, x_pubs m (q ++ [n]) file = x_pubs m q file ++ [x_sym m n []].
Proof.
  intros P. induction q as [|p q IH]; intros file; cbn [x_pubs app]. { rewrite P. reflexivity. }
  destruct (lines_on (m_opt m) && y_proc (sym m p)); rewrite IH; cbn [app]; [|reflexivity]. rewrite <- app_assoc. reflexivity.
Qed.
Lemma placed_snoc m c n : plain m n -> forall q file i, placed m c q file i -> c n = i + xsizes (x_pubs m q file) -> placed m c (q ++ [n]) file i.
Proof.
  intros P. induction q as [|p q IH]; intros file i Pl C; cbn [x_pubs app placed] in *. { rewrite P. split; [rewrite C; cbn; lia|exact Logic.I]. }
  cbn zeta in *. destruct (lines_on (m_opt m) && y_proc (sym m p)); destruct Pl as [P1 P2]; (split; [assumption|]); apply IH; auto; rewrite C.
  - rewrite xsizes_app. cbn [xsizes fold_right]. fold (xsizes (x_pubs m q (y_file (sym m p)))). xsz.
    destruct (y_file (sym m p) =? file); cbn [xsizes fold_right]; [lia|]. rewrite xfile_size. lia.
  - cbn [xsizes fold_right]. fold (xsizes (x_pubs m q file)). xsz. lia.
Qed.
Lemma fvals_snoc m s n : plain m n -> forall q file i, fvals m s (q ++ [n]) file i = fvals m s q file i.
Proof. intros P. induction q as [|p q IH]; intros file i; cbn [fvals app]. { now rewrite P. } destruct (lines_on (m_opt m) && y_proc (sym m p)); now rewrite IH. Qed.
Lemma placed_at m c : forall q file i p, placed m c q file i -> In p q -> exists a aux b, x_pubs m q file = a ++ x_sym m p aux :: b /\ c p = i + xsizes a.
Proof.
  induction q as [|x q IH]; intros file i p Pl I'; [destruct I'|]. cbn [placed x_pubs] in *. cbn zeta in *.
  destruct (lines_on (m_opt m) && y_proc (sym m x)) eqn:PR; destruct Pl as [P1 P2].
  - destruct I' as [->|I'].
    + exists (if y_file (sym m p) =? file then [] else [x_file (file_name m (y_file (sym m p)))]), [XProc p]. eexists. split; [reflexivity|]. rewrite P1.
      destruct (y_file (sym m p) =? file); cbn [xsizes fold_right]; [lia|]. rewrite xfile_size. lia.
    + destruct (IH _ _ _ P2 I') as (a & aux & b & E & V). rewrite E.
      match goal with |- context [?pre ++ ?u :: ?v :: ?w :: ?z :: a ++ _] => exists (pre ++ [u; v; w; z] ++ a), aux, b end.
      split; [rewrite <- !app_assoc; reflexivity|]. rewrite V, !xsizes_app. cbn [xsizes fold_right]. fold (xsizes a). xsz.
      destruct (y_file (sym m x) =? file); cbn [xsizes fold_right]; [lia|]. rewrite xfile_size. lia.
  - destruct I' as [->|I'].
    + exists [], [], (x_pubs m q file). split; [reflexivity|]. rewrite P1. cbn. lia.
    + destruct (IH _ _ _ P2 I') as (a & aux & b & E & V). rewrite E. exists (x_sym m x [] :: a), aux, b. split; [reflexivity|]. rewrite V. cbn [xsizes fold_right]. fold (xsizes a). xsz. lia.
Qed.
Fixpoint vchain (l : list (Z * Z)) : Prop := match l with [] => True | (_, v) :: r => v = hd 0 (map fst r) mod 2 ^ 32 /\ vchain r end.
Lemma pub_indices_spec m : forall q index lastfile lp s i' s', pub_indices m q index lastfile lp s = Ok (i', s') ->
  NoDup q -> 0 < index -> (forall l, lp = Some l -> c_start_files s <> 0 -> ~ In l q) -> (forall n, In n q -> next_file (c_dbg s n) = 0) ->
  i' = index + xsizes (x_pubs m q lastfile) /\ placed m (c_idx s') q lastfile index /\ (forall n, ~ In n q -> c_idx s' n = c_idx s n) /\
  c_inc s' = c_inc s /\ c_pub s' = c_pub s /\ c_lastproc s' = c_lastproc s /\
  (forall n, c_dbg s' n = set_next_file (c_dbg s n) (next_file (c_dbg s' n))) /\
  let fv := map fst (fvals m s' q lastfile index) in
  c_start_files s' = (if c_start_files s =? 0 then hd 0 fv else c_start_files s) /\
  (forall n, ~ In n q -> next_file (c_dbg s' n) =
     if negb (c_start_files s =? 0) && match lp with Some l => Nat.eqb n l | None => false end then hd (next_file (c_dbg s n)) fv else next_file (c_dbg s n)) /\
  vchain (fvals m s' q lastfile index).
Proof.
  induction q as [|p q IH]; intros index lastfile lp s i' s' E N P Lp Nf.
  - cbn [pub_indices] in E. injection E as <- <-. cbn [x_pubs xsizes fold_right placed fvals map hd vchain]. split; [lia|]. split; [exact Logic.I|]. do 4 (split; [reflexivity|]).
    split; [intros n; destruct (c_dbg s n); reflexivity|]. cbn zeta. split; [destruct (Z.eqb_spec (c_start_files s) 0); congruence|]. split; [|exact Logic.I]. intros n _. destruct (_ && _); reflexivity.
  - inversion N as [|? ? Np Nq]; subst. cbn [pub_indices] in E. cbn zeta in E. cbn [x_pubs placed fvals]. cbn zeta.
    destruct (lines_on (m_opt m) && y_proc (sym m p)) eqn:PR.
    + set (name := file_name m (y_file (sym m p))) in *. pose proof (aux_entries_nonneg name) as An.
      destruct (Z.eqb_spec (y_file (sym m p)) lastfile) as [Ef|Nef]; cbn [negb] in E.
      * apply IH in E; [|assumption|lia| |].
        2: { cbn [c_start_files]. intros l Hl Hs Q. apply (Lp l Hl Hs). now right. }
        2: { cbn [c_dbg]. intros n Hn. apply Nf. now right. }
        destruct E as (E1 & E2 & E3 & E4 & E5 & E6 & E7 & E8 & E9 & E10). cbn [c_idx c_inc c_pub c_lastproc c_dbg c_start_files] in *.
        rewrite Ef. cbn [app]. rewrite Z.add_0_r.
        split. { rewrite E1. cbn [xsizes fold_right]. fold (xsizes (x_pubs m q lastfile)). xsz. lia. }
        split. { split; [|assumption]. rewrite E3 by assumption. unfold set. now rewrite Nat.eqb_refl. }
        split. { intros n Hn. rewrite E3 by (cbn in Hn; tauto). unfold set. destruct (Nat.eqb_spec n p); [subst; exfalso; apply Hn; now left|reflexivity]. }
        do 4 (split; [assumption|]). split; [assumption|]. split; [|assumption]. intros n Hn. apply E9. cbn in Hn. tauto.
      * set (i := index + (1 + aux_entries name)) in *.
        assert (KEY : exists s1, pub_indices m q (i + 7) (y_file (sym m p)) (Some p) s1 = Ok (i', s') /\ c_idx s1 = set (c_idx s) p i /\ c_inc s1 = c_inc s /\ c_pub s1 = c_pub s /\ c_lastproc s1 = c_lastproc s /\
          c_start_files s1 <> 0 /\ c_start_files s1 = (if c_start_files s =? 0 then index else c_start_files s) /\
          (forall n, c_dbg s1 n = set_next_file (c_dbg s n) (next_file (c_dbg s1 n))) /\
          (forall n, next_file (c_dbg s1 n) = if negb (c_start_files s =? 0) && match lp with Some l => Nat.eqb n l | None => false end then index else next_file (c_dbg s n))).
        { destruct (Z.eqb_spec (c_start_files s) 0) as [Z0|Z0].
          - eexists. split; [exact E|]. cbn [c_idx c_inc c_pub c_lastproc c_start_files c_dbg]. do 4 (split; [reflexivity|]). split; [lia|]. split; [reflexivity|]. split; [intros n; destruct (c_dbg s n); reflexivity|]. reflexivity.
          - destruct lp as [l|]; [|discriminate]. eexists. split; [exact E|]. cbn [c_idx c_inc c_pub c_lastproc c_start_files c_dbg]. do 4 (split; [reflexivity|]). split; [assumption|]. split; [reflexivity|].
            split; intros n; unfold set; destruct (Nat.eqb_spec n l); cbn [negb andb]; subst; try reflexivity; destruct (c_dbg s n); reflexivity. }
        clear E. destruct KEY as (s1 & E & S1 & S2 & S3 & S4 & S5 & S6 & S7 & S8).
        apply IH in E; [|assumption|unfold i; lia| |].
        2: { intros l Hl _. injection Hl as <-. assumption. }
        2: { intros n Hn. rewrite S8. destruct (negb (c_start_files s =? 0) && _) eqn:Q; [|apply Nf; now right]. exfalso. apply andb_prop in Q as [Q1 Q2]. destruct lp as [l|]; [|discriminate]. apply Nat.eqb_eq in Q2. subst l.
             apply (Lp n eq_refl); [|now right]. intros Z0. rewrite Z0 in Q1. discriminate. }
        destruct E as (E1 & E2 & E3 & E4 & E5 & E6 & E7 & E8 & E9 & E10). fold i. cbn [app].
        replace (c_start_files s1 =? 0) with false in E8, E9 by (symmetry; now apply Z.eqb_neq). cbn [negb andb] in E9.
        split. { rewrite E1. cbn [xsizes fold_right]. fold (xsizes (x_pubs m q (y_file (sym m p)))). rewrite xfile_size. xsz. unfold i. lia. }
        split. { split; [|assumption]. rewrite E3, S1 by assumption. unfold set. now rewrite Nat.eqb_refl. }
        split. { intros n Hn. rewrite E3, S1 by (cbn in Hn; tauto). unfold set. destruct (Nat.eqb_spec n p); [subst; exfalso; apply Hn; now left|reflexivity]. }
        split; [congruence|]. split; [congruence|]. split; [congruence|].
        split. { intros n. rewrite E7, S7 at 1. reflexivity. }
        cbn [map fst hd vchain]. split; [congruence|]. split.
        { intros n Hn. rewrite E9 by (cbn in Hn; tauto). destruct (Nat.eqb_spec n p); [subst; exfalso; apply Hn; now left|]. apply S8. }
        split; [|assumption]. assert (NFp : next_file (c_dbg s' p) = hd 0 (map fst (fvals m s' q (y_file (sym m p)) (i + 7)))).
        { rewrite E9, Nat.eqb_refl by assumption. rewrite S8. replace (negb _ && _) with false. { rewrite Nf by (now left). reflexivity. }
          symmetry. destruct (Z.eqb_spec (c_start_files s) 0); [reflexivity|]. destruct lp as [l|]; [|reflexivity]. cbn [negb andb]. apply Nat.eqb_neq. intros ->. apply (Lp l eq_refl); [assumption|now left]. }
        now rewrite NFp.
    + apply IH in E; [|assumption|lia| |].
      2: { cbn [c_start_files]. intros l Hl Hs Q. apply (Lp l Hl Hs). now right. }
      2: { cbn [c_dbg]. intros n Hn. apply Nf. now right. }
      destruct E as (E1 & E2 & E3 & E4 & E5 & E6 & E7 & E8 & E9 & E10). cbn [c_idx c_inc c_pub c_lastproc c_dbg c_start_files] in *.
      split. { rewrite E1. cbn [xsizes fold_right]. fold (xsizes (x_pubs m q lastfile)). xsz. lia. }
      split. { split; [|assumption]. rewrite E3 by assumption. unfold set. now rewrite Nat.eqb_refl. }
      split. { intros n Hn. rewrite E3 by (cbn in Hn; tauto). unfold set. destruct (Nat.eqb_spec n p); [subst; exfalso; apply Hn; now left|reflexivity]. }
      do 4 (split; [assumption|]). split; [assumption|]. split; [|assumption]. intros n Hn. apply E9. cbn in Hn. tauto.
Qed.
