(** C15-C17: the object file. *)
From Verif Require Import Base Crc_Model Crc_Spec Coff_Model Coff_Spec CoffStr_Proofs CoffSym_Proofs CoffEnt_Proofs CoffPub_Proofs CoffIdx_Proofs CoffRel_Proofs CoffLine_Proofs CoffHead_Proofs CoffSec_Proofs CoffTab_Proofs.
From Coq Require Import Lia.

(** * the state before the data is written *)
Definition files0 (m : module) (s : st) : list (Z * Z) := fvals m s (queue m) 0 (pub_base m).
Lemma init_spec m index s0 : module_ok m -> SetSymbolIndices m = Ok (index, s0) ->
  inv m index s0 [] /\ dinv m (fun p => next_file (c_dbg s0 p)) [] s0 [] /\ c_start_files s0 = hd 0 (map fst (files0 m s0)) /\ vchain (files0 m s0).
Proof.
  intros M. unfold SetSymbolIndices. cbn zeta. destruct (ext_indices m (m_ext m) _ _) as [i1 idx] eqn:Ei.
  apply ext_indices_spec in Ei as (Ei & _ & Ex).
  assert (PB : i1 = pub_base m). { rewrite Ei. unfold pub_base, ext_base. rewrite head_size, secs_size. unfold x_exts. fold (xexts m (m_ext m)). change (map _ (filter _ (m_ext m))) with (xexts m (m_ext m)). lia. }
  destruct (w_pub _ M) as [WP ND].
  assert (ST : exists inc, (if no_static_procs (m_opt m) then (fun n => y_included (sym m n), m_pub m) else static_procs m (m_procs m) (fun n => y_included (sym m n)) (m_pub m)) = (inc, queue m) /\
     forall n, inc n = y_included (sym m n) || existsb (Nat.eqb n) (statics m)).
  { unfold queue, statics in *. destruct (no_static_procs (m_opt m)).
    - eexists. split; [rewrite app_nil_r; reflexivity|]. intros n. cbn [existsb]. now rewrite orb_false_r.
    - destruct (static_procs m (m_procs m) (fun n => y_included (sym m n)) (m_pub m)) as [inc pub] eqn:Es. apply (static_spec m _ _ _ []) in Es as [-> E].
      + exists inc. split; [reflexivity|exact E].
      + intros n. cbn [existsb]. now rewrite orb_false_r.
      + cbn [app]. clear -ND. induction (m_pub m) as [|a r IH]; [exact ND|]. cbn [app] in ND. inversion ND; auto. }
  destruct ST as (inc & -> & HI). clear Ei. subst i1. intros E.
  apply pub_indices_spec in E as (E1 & E2 & E3 & E4 & E5 & E6 & E7 & E8 & E9 & E10); [|assumption| |discriminate|reflexivity].
  2: { unfold pub_base, ext_base. rewrite head_size, secs_size. destruct (w_secs _ M) as (_ & NE & _). pose proof (xsizes_nonneg (x_exts m)). pose proof (xsizes_nonneg (head_entries m)) as Hh. rewrite head_size in Hh.
       destruct (m_secs m); [congruence|]. rewrite zlen_cons. pose proof (zlen_nonneg l). destruct (no_section_aux (m_opt m)); lia. }
  cbn [c_idx c_inc c_pub c_dbg c_lastproc c_start_files] in *. cbv zeta in *. cbn in E8.
  split.
  { split.
    - now rewrite E5, app_nil_r.
    - constructor.
    - now rewrite E5.
    - now rewrite E5.
    - now rewrite E5.
    - intros n. rewrite E4, app_nil_r. apply HI.
    - intros n In1 Sk. destruct (Ex n In1 Sk) as (a & b & Ea & Eb). exists a, b. split; [exact Ea|]. rewrite E3.
      + rewrite Eb. unfold ext_base. rewrite head_size, secs_size. lia.
      + intros Q. pose proof (w_ext _ M) as WE. rewrite Forall_forall in WE. specialize (WE n In1). unfold queue in Q. apply in_app_or in Q as [Q|Q].
        * rewrite Forall_forall in WP. destruct (WP n Q) as [Q1 _]. congruence.
        * unfold statics in Q. destruct (no_static_procs (m_opt m)); [destruct Q|]. apply filter_In in Q as [_ Q]. unfold private, is_internal in Q. rewrite WE in Q. discriminate. }
  split.
  { split.
    - intros p. rewrite E7. reflexivity.
    - rewrite E6. reflexivity.
    - constructor.
    - constructor. }
  split; [exact E8|exact E10].
Qed.
Lemma fvals_cong m s s' : forall q file i, (forall p, next_file (c_dbg s p) = next_file (c_dbg s' p)) -> fvals m s q file i = fvals m s' q file i.
Proof. induction q as [|p q IH]; intros file i H; [reflexivity|]. cbn [fvals]. destruct (_ && _); rewrite ?H; now rewrite (IH _ _ H). Qed.
Lemma fvals_plain m s : forall added q file i, Forall (plain m) added -> fvals m s (q ++ added) file i = fvals m s q file i.
Proof.
  induction added as [|n r IH] using rev_ind; intros q file i F; [now rewrite app_nil_r|]. apply Forall_app in F as [F1 F2]. rewrite app_assoc, fvals_snoc by (now inversion F2). now apply IH.
Qed.

(** * the debug information *)
Lemma find_groups (p : nat) (G : list pgroup) gs : map fst G = gs ->
  match find (fun g => Nat.eqb (gname (fst g)) p) G with
  | Some ((n, l, g), pos) => find (fun '(n, _, _) => Nat.eqb n p) gs = Some (n, l, g) /\ n = p /\ In ((n, l, g), pos) G
  | None => find (fun '(n, _, _) => Nat.eqb n p) gs = None
  end.
Proof.
  intros <-. induction G as [|[[[n l] g] pos] G IH]; [reflexivity|]. cbn [find map]. change (gname (fst (n, l, g, pos))) with n. change (fst (n, l, g, pos)) with (n, l, g). cbv iota beta. destruct (Nat.eqb_spec n p) as [->|N].
  - split; [reflexivity|]. split; [reflexivity|now left].
  - match type of IH with context [find ?f G] => destruct (find f G) as [[[[n2 l2] g2] pos2]|] end; [|exact IH]. destruct IH as (A & B & C). split; [exact A|]. split; [exact B|now right].
Qed.
Lemma pnames_groups m (G : list pgroup) : map fst G = all_groups m -> pnames G = map (fun '(n, _, _) => n) (all_groups m).
Proof. intros <-. unfold pnames. rewrite map_map. apply map_ext. now intros [[[n l] g] pos]. Qed.
Lemma follower_In p : forall L q, follower p L = Some q -> In q L.
Proof.
  induction L as [|x r IH]; cbn [follower]; [discriminate|]. intros q. destruct (Nat.eqb x p).
  - destruct r; cbn [hd_error]; [discriminate|]. intros E. injection E as ->. right. now left.
  - intros E. right. auto.
Qed.
Lemma dbg_count m nf (G : list pgroup) s D : map fst G = all_groups m -> dinv m nf G s D -> forall p, ln_count (c_dbg s p) = proc_count m p.
Proof.
  intros EG V p. rewrite (d_dbg _ _ _ _ _ V). unfold dspec, proc_count, group_of. pose proof (find_groups p G _ EG) as F. match type of F with context [find ?ff G] => destruct (find ff G) as [[[[n l] g] pos]|] end.
  - destruct F as [F _]. rewrite F. reflexivity.
  - rewrite F. reflexivity.
Qed.
Lemma dbg_next_file m nf (G : list pgroup) s D : dinv m nf G s D -> forall p, next_file (c_dbg s p) = nf p.
Proof. intros V p. rewrite (d_dbg _ _ _ _ _ V). unfold dspec. match goal with |- context [find ?ff G] => destruct (find ff G) as [[[[n l] g] pos]|] end; reflexivity. Qed.
Lemma dbg_ok m nf (G : list pgroup) s D A B T : map fst G = all_groups m -> dinv m nf G s D -> zlen A = start_data m -> zlen (A ++ D ++ B) < 2 ^ 32 ->
  (forall q, In q (pnames G) -> designates m T (c_idx s q) q /\ 0 < c_idx s q < 2 ^ 32 - 2) -> dbg_hyp m (A ++ D ++ B) s T.
Proof.
  intros EG V LA LB HQ p. cbn zeta. rewrite (d_dbg _ _ _ _ _ V). unfold dspec, proc_start, proc_end, next_group, group_of. rewrite <- (pnames_groups m G EG).
  pose proof (find_groups p G _ EG) as F. match type of F with context [find ?ff G] => destruct (find ff G) as [[[[n l] g] pos]|] eqn:Ef end.
  - destruct F as (F & -> & I'). rewrite F. cbn [start_line end_line ln_fileofs next_proc]. split; [reflexivity|]. split; [reflexivity|]. split.
    + pose proof (d_pos _ _ _ _ _ V) as P. rewrite Forall_forall in P. destruct (P _ I') as (off & Eo & So). cbn [snd fst gname] in Eo, So. unfold gname in So. cbn [fst] in So.
      rewrite !zlen_app in LB. pose proof (zlen_nonneg A). pose proof (zlen_nonneg D). pose proof (zlen_nonneg B).
      assert (R : 0 <= off /\ off + 6 <= zlen D). { unfold slice in So. destruct (_ && _) eqn:Q; [|discriminate]. apply andb_prop in Q as [Q1 Q2]. apply andb_prop in Q1 as [Q1 _]. split; [now apply Z.leb_le|now apply Z.leb_le]. }
      rewrite Eo, wrap_small by lia. split; [lia|]. rewrite <- So. rewrite <- LA. clear -R LB. unfold slice. rewrite !zlen_app. pose proof (zlen_nonneg A). pose proof (zlen_nonneg B).
      destruct (Z.leb_spec 0 (zlen A + off)); [|lia]. destruct (Z.leb_spec 0 off); [|lia]. change (0 <=? 6) with true. cbn [andb]. destruct (Z.leb_spec (zlen A + off + 6) (zlen A + (zlen D + zlen B))); [|lia]. destruct (Z.leb_spec (off + 6) (zlen D)); [|lia].
      f_equal. replace (Z.to_nat (zlen A + off)) with (length A + Z.to_nat off)%nat by (unfold zlen; lia). rewrite skipn_app. rewrite skipn_all2 by lia. replace (length A + Z.to_nat off - length A)%nat with (Z.to_nat off) by lia. cbn [app].
      rewrite skipn_app, firstn_app. rewrite skipn_length. replace (Z.to_nat 6 - (length D - Z.to_nat off))%nat with 0%nat by (unfold zlen in *; lia). apply app_nil_r.
    + destruct (follower p (pnames G)) as [q|] eqn:Fo; [|reflexivity]. destruct (HQ q (follower_In _ _ _ Fo)) as [Q1 Q2]. rewrite wrap_small by lia. split; [assumption|lia].
  - rewrite F. cbn [start_line end_line ln_fileofs next_proc]. do 3 (split; [reflexivity|]). rewrite (follower_notin p (pnames G)); [reflexivity|].
    intros Q. unfold pnames in Q. apply in_map_iff in Q as (g & Eg & Ig). pose proof (find_none _ _ Ef g Ig) as N. cbv beta in N. rewrite Eg, Nat.eqb_refl in N. discriminate.
Qed.

(** * what the indices refer to *)
Lemma basic_describes m n aux e : basic (x_sym m n aux) e -> describes m n e.
Proof. intros (B1 & B2 & B3 & B4 & B5 & _). cbn [x_sym x_name x_value x_section x_type x_class] in *. repeat split; assumption. Qed.
Definition target m (T : table) (v : Z) (n : nat) : Prop := designates m T v n /\ 0 <= v < xsizes (asked_symbols m).
Lemma pub_target m index s added T n : inv m index s added -> c_pub s = asked_pubs m -> matches 0 (asked_symbols m) T -> In n (c_pub s) -> target m T (c_idx s n) n /\ pub_base m <= c_idx s n.
Proof.
  intros V EP MT I'. destruct (placed_at _ _ _ _ _ _ (v_placed _ _ _ _ V) I') as (a & aux & b & Ea & Ec). rewrite EP in Ea.
  rewrite asked_split, Ea in MT. set (pre := head_entries m ++ x_secs m 0 (m_secs m) ++ x_exts m) in *.
  assert (EQ : head_entries m ++ x_secs m 0 (m_secs m) ++ x_exts m ++ (a ++ x_sym m n aux :: b) ++ map (x_alias m) (m_alias m) = (pre ++ a) ++ x_sym m n aux :: (b ++ map (x_alias m) (m_alias m))).
  { unfold pre. rewrite <- !app_assoc. reflexivity. }
  rewrite EQ in MT. assert (PB : xsizes pre = pub_base m) by (unfold pre, pub_base, ext_base; rewrite !xsizes_app; lia).
  destruct (matches_at _ _ _ _ _ MT) as (e & Ie & Be). rewrite xsizes_app, PB in Ie. cbn [Z.add] in Ie. rewrite <- Ec in Ie. split; [split|].
  - exists e. split; [exact Ie|]. eapply basic_describes. exact Be.
  - pose proof (matches_bound _ _ _ MT _ _ Ie) as Q. rewrite <- EQ, <- Ea, <- asked_split in Q. exact Q.
  - pose proof (xsizes_nonneg a). lia.
Qed.
Lemma ext_target m index s added T n : inv m index s added -> matches 0 (asked_symbols m) T -> In n (m_ext m) -> skipped (sym m n) = false -> target m T (c_idx s n) n.
Proof.
  intros V MT I' Sk. destruct (v_ext _ _ _ _ V n I' Sk) as (a & b & Ea & Ec). rewrite asked_split, Ea in MT. unfold xext in *. set (x := x_sym m n _) in *.
  set (pre := head_entries m ++ x_secs m 0 (m_secs m)) in *. set (post := b ++ x_pubs m (asked_pubs m) 0 ++ map (x_alias m) (m_alias m)).
  assert (EQ : head_entries m ++ x_secs m 0 (m_secs m) ++ (a ++ x :: b) ++ x_pubs m (asked_pubs m) 0 ++ map (x_alias m) (m_alias m) = (pre ++ a) ++ x :: post).
  { unfold pre, post. rewrite <- !app_assoc. reflexivity. }
  rewrite EQ in MT. assert (PB : xsizes pre = ext_base m) by (unfold pre, ext_base; now rewrite !xsizes_app).
  destruct (matches_at _ _ _ _ _ MT) as (e & Ie & Be). rewrite xsizes_app, PB in Ie. cbn [Z.add] in Ie. rewrite <- Ec in Ie. split.
  - exists e. split; [exact Ie|]. eapply basic_describes. exact Be.
  - pose proof (matches_bound _ _ _ MT _ _ Ie) as Q. rewrite <- EQ, <- Ea, <- asked_split in Q. exact Q.
Qed.
Lemma sec_target m T k s : matches 0 (asked_symbols m) T -> nth_error (m_secs m) k = Some s -> (exists e, In (sec_index m k, e) T /\ describes_section m k e) /\ 0 <= sec_index m k < xsizes (asked_symbols m).
Proof.
  intros MT N. destruct (secs_at m (m_secs m) 0 k s N) as (a & b & Ea & Ec). rewrite asked_split, Ea in MT. cbn [Nat.add] in MT, Ea.
  set (post := b ++ x_exts m ++ x_pubs m (asked_pubs m) 0 ++ map (x_alias m) (m_alias m)).
  assert (EQ : head_entries m ++ (a ++ x_sec m k s :: b) ++ x_exts m ++ x_pubs m (asked_pubs m) 0 ++ map (x_alias m) (m_alias m) = (head_entries m ++ a) ++ x_sec m k s :: post).
  { unfold post. rewrite <- !app_assoc. reflexivity. }
  rewrite EQ in MT. destruct (matches_at _ _ _ _ _ MT) as (e & Ie & Be). rewrite xsizes_app, head_size, Ec in Ie. cbn [Z.add] in Ie.
  replace (section_start m + (Z.of_nat k + (if no_section_aux (m_opt m) then 0 else Z.of_nat k))) with (sec_index m k) in Ie by (unfold sec_index; lia). split.
  - exists e. split; [exact Ie|]. destruct Be as (B1 & B2 & B3 & B4 & B5 & _). cbn [x_sec x_name x_value x_section x_type x_class] in *. exists s. repeat split; assumption.
  - pose proof (matches_bound _ _ _ MT _ _ Ie) as Q. rewrite <- EQ, <- Ea, <- asked_split in Q. exact Q.
Qed.
Lemma exported_target m index s added T n : inv m index s added -> c_pub s = asked_pubs m -> matches 0 (asked_symbols m) T -> exported m n -> target m T (c_idx s n) n.
Proof.
  intros V EP MT X. unfold exported in X. destruct (y_state (sym m n)); [|destruct X as [X1 X2]; eapply ext_target; eassumption|destruct X].
  eapply pub_target; [eassumption..|]. rewrite (v_pub _ _ _ _ V). apply in_or_app. now left.
Qed.
Lemma ref_target m index s added T f : inv m index s added -> c_pub s = asked_pubs m -> matches 0 (asked_symbols m) T -> fixup_ok m f -> is_none f = false -> ref_settled m s (f_ref f) ->
  target_ok m T (ref_idx m s (f_ref f)) (f_ref f) /\ 0 <= ref_idx m s (f_ref f) < xsizes (asked_symbols m).
Proof.
  intros V EP MT (_ & _ & F) N R. unfold is_none in N. destruct (f_ref f) as [|n|k|[k|]]; try discriminate; try contradiction; cbn [target_ok ref_idx ref_settled] in *.
  - destruct F as [_ F]. unfold linkable in F. destruct (y_state (sym m n)) eqn:Y; [| |destruct F].
    + eapply pub_target; [eassumption..|]. unfold settled, is_internal in R. rewrite Y in R. cbn [andb] in R. rewrite (v_inc _ _ _ _ V) in R. rewrite (v_pub _ _ _ _ V).
      destruct (y_public (sym m n)) eqn:YP; [apply in_or_app; left; unfold queue; apply in_or_app; left; now apply F|].
      destruct (y_included (sym m n)) eqn:YI; [apply in_or_app; left; unfold queue; apply in_or_app; left; now apply F|]. cbn [orb negb] in R. rewrite andb_true_r in R.
      apply negb_false_iff, existsb_In in R. unfold queue. rewrite <- app_assoc. apply in_or_app. now right.
    + destruct F as [F1 F2]. eapply ext_target; eassumption.
  - destruct F as [_ F]. destruct (nth_error (m_secs m) k) as [x|] eqn:E; [|apply nth_error_None in E; lia]. eapply sec_target; eassumption.
  - destruct F as [_ F]. destruct (nth_error (m_secs m) k) as [x|] eqn:E; [|apply nth_error_None in E; lia]. eapply sec_target; eassumption.
Qed.

(** * the symbol table *)
Lemma pub_count m s : forall q lastfile cnt l ias recs cnt' l' ias', pub_entries m s q lastfile cnt l ias = (recs, cnt', l', ias') -> zlen recs = xsizes (x_pubs m q lastfile).
Proof.
  induction q as [|p q IH]; intros lastfile cnt l ias recs cnt' l' ias' E.
  - cbn [pub_entries] in E. injection E as <- _ _ _. reflexivity.
  - pose proof (pub_entries_cons m s p q lastfile cnt l ias) as EQ. cbn zeta in EQ. destruct (alloc_name l (y_name (sym m p))) as [nm l1]. rewrite EQ in E. clear EQ.
    cbn [x_pubs]. destruct (lines_on (m_opt m) && y_proc (sym m p)).
    + match type of E with context [pub_entries m s q ?a ?b ?c ?d] => destruct (pub_entries m s q a b c d) as [[[rs c'] l2] j] eqn:Er end.
      apply IH in Er. apply pair_equal_spec in E as [E _]. apply pair_equal_spec in E as [E _]. apply pair_equal_spec in E as [E _]. rewrite <- E. cbn [andb].
      rewrite !zlen_app, xsizes_app. cbn [xsizes fold_right]. fold (xsizes (x_pubs m q (y_file (sym m p)))). rewrite <- Er. xsz.
      match goal with |- context [zlen (if ?b then ?x else [])] => assert (FS : zlen (if b then x else []) = xsizes (if y_file (sym m p) =? lastfile then [] else [x_file (file_name m (y_file (sym m p)))])) end.
      { destruct (y_file (sym m p) =? lastfile); cbn [negb]; [reflexivity|]. cbn [xsizes fold_right]. rewrite xfile_size. unfold file_entry. rewrite zlen_cons.
        destruct (pieces_spec _ (file_name m (y_file (sym m p))) (le_n _)) as (P1 & P2 & _). rewrite P1, P2. lia. }
      rewrite FS. change (zlen [?a; ?b]) with 2. repeat match goal with |- context [zlen [?a; ?b]] => change (zlen [a; b]) with 2 end.
      repeat match goal with |- context [zlen [?a]] => change (zlen [a]) with 1 end. lia.
    + match type of E with context [pub_entries m s q ?a ?b ?c ?d] => destruct (pub_entries m s q a b c d) as [[[rs c'] l2] j] eqn:Er end.
      apply IH in Er. apply pair_equal_spec in E as [E _]. apply pair_equal_spec in E as [E _]. apply pair_equal_spec in E as [E _]. rewrite <- E. rewrite zlen_app. cbn [xsizes fold_right].
      fold (xsizes (x_pubs m q lastfile)). rewrite <- Er. xsz. repeat match goal with |- context [zlen [?a]] => change (zlen [a]) with 1 end. lia.
Qed.
Lemma pub_wf m added : module_ok m -> Forall (fun n => private m n = true /\ plain m n) added -> Forall (fun n => (n < length (m_syms m))%nat) added ->
  Forall (fun p => y_state (sym m p) = Internal /\ symbol_wf m (sym m p)) (queue m ++ added).
Proof.
  intros M F1 F2. rewrite Forall_forall in *. intros p I'. destruct (w_pub _ M) as [WP _]. rewrite Forall_forall in WP. pose proof (w_known _ M) as K. rewrite Forall_forall in K.
  assert (PI : private m p = true -> y_state (sym m p) = Internal). { unfold private, is_internal. destruct (y_state (sym m p)); [reflexivity|discriminate|discriminate]. }
  apply in_app_or in I' as [I'|I'].
  - unfold queue in I'. apply in_app_or in I' as [I'|I'].
    + split; [apply WP; assumption|]. apply sym_wf; [assumption|]. apply K. apply in_or_app. right. apply in_or_app. now left.
    + unfold statics in I'. destruct (no_static_procs (m_opt m)); [destruct I'|]. apply filter_In in I' as [I1 I2]. split; [now apply PI|]. apply sym_wf; [assumption|]. apply K. apply in_or_app. right. apply in_or_app. right. apply in_or_app. now left.
  - split; [apply PI, F1; assumption|]. apply sym_wf; [assumption|]. now apply F2.
Qed.
Definition hyp (m : module) (f : list Z) (s : st) (T : table) : Prop := idx_hyp m s T /\ dbg_hyp m f s T.
Definition main_file (m : module) (s : st) : list (Z * Z) :=
  if no_file_entry (m_opt m) then [] else [(xsizes (if safeseh (m_opt m) then [x_file []] else []), (if line_numbers (m_opt m) then c_start_files s else 0) mod 2 ^ 32)].
Lemma symbols_part m f xs s l recs cnt l' index added : module_ok m -> ln_ok l -> Forall2 same (m_secs m) xs -> inv m index s added -> Forall (fun n => (n < length (m_syms m))%nat) added ->
  c_pub s = asked_pubs m -> (forall p, ln_count (c_dbg s p) = proc_count m p) -> coff_write_symbols m xs s l = Ok (recs, cnt, l') -> zlen recs < 2 ^ 32 ->
  part m f (hyp m f s) l 0 (asked_symbols m) recs (main_file m s ++ fvals m s (asked_pubs m) 0 (pub_base m)) l' /\ cnt = zlen recs.
Proof.
  intros M LN SM V KN EP CT E B. unfold coff_write_symbols in E. cbn zeta in E.
  set (feat := feat_entry (m_opt m)) in *. set (files := if no_file_entry (m_opt m) then [] else _) in *.
  set (ias0 := match files with [] => m_ias m | _ :: r => last_aux r (m_ias m) end) in *.
  destruct (section_entries (m_opt m) xs 1 l ias0) as [[[secs l1] ias1]| |] eqn:Es; cbn [bindr] in E; try discriminate.
  destruct (ext_entries m s (m_ext m) l1 ias1) as [[exts l2] ias2] eqn:Ee.
  destruct (pub_entries m s (c_pub s) 0 (zlen feat + zlen files + zlen secs + zlen exts) l2 ias2) as [[[pubs cnt1] l3] ias3] eqn:Ep.
  destruct (alias_entries m s (m_alias m) l3) as [als l4] eqn:Ea. apply Ok_inj in E. apply pair_equal_spec in E as [E <-]. apply pair_equal_spec in E as [<- <-].
  pose proof (w_known _ M) as K. rewrite !Forall_app in K. destruct K as (K1 & K2 & K3 & K4).
  destruct (w_secs _ M) as (WS & NE & SB). destruct (w_vars _ M) as (I18 & _).
  assert (Hfeat : part m f (hyp m f s) l 0 (if safeseh (m_opt m) then [{| x_name := [64; 102; 101; 97; 116; 46; 48; 48]; x_value := Some (if debug4 (m_opt m) then 16 else 1); x_section := -1; x_type := 0; x_class := 3; x_aux := [] |}] else []) feat [] l).
  { unfold feat, feat_entry. destruct (safeseh (m_opt m)); [|now apply part_nil].
    apply (part_short m f _ l 0 feat00 (if debug4 (m_opt m) then 16 else 1) IMAGE_SYM_ABSOLUTE 0 CLASS_STATIC []);
      [assumption|split; [discriminate|repeat constructor; lia]|vm_compute; discriminate|constructor|reflexivity| |intros; constructor].
    split; [reflexivity|]. split; [cbn [x_value mk_entry e_value]; destruct (debug4 (m_opt m)); reflexivity|]. repeat split; reflexivity. }
  assert (Hfile : part m f (hyp m f s) l (0 + xsizes (if safeseh (m_opt m) then [{| x_name := [64; 102; 101; 97; 116; 46; 48; 48]; x_value := Some (if debug4 (m_opt m) then 16 else 1); x_section := -1; x_type := 0; x_class := 3; x_aux := [] |}] else []))
      (if no_file_entry (m_opt m) then [] else [x_file (m_dot_file m)]) files (main_file m s) l).
  { unfold files, main_file. destruct (no_file_entry (m_opt m)); [now apply part_nil|].
    replace (xsizes (if safeseh (m_opt m) then [x_file []] else [])) with (0 + xsizes (if safeseh (m_opt m) then [{| x_name := [64; 102; 101; 97; 116; 46; 48; 48]; x_value := Some (if debug4 (m_opt m) then 16 else 1); x_section := -1; x_type := 0; x_class := 3; x_aux := [] |}] else []))
      by (destruct (safeseh (m_opt m)); reflexivity). apply file_part; [assumption|]. apply (w_file _ M). }
  assert (L18 : length ias0 = 18%nat).
  { unfold ias0, files. destruct (no_file_entry (m_opt m)); [assumption|]. unfold file_entry. apply last_length; [|assumption]. destruct (pieces_spec _ (m_dot_file m) (le_n _)) as (P1 & _ & P3). now rewrite P1. }
  pose proof (part_app _ _ _ _ _ _ _ _ _ _ _ _ _ _ Hfeat Hfile eq_refl) as H0. cbn [app] in H0. fold (head_entries m) in H0.
  destruct (section_part m f (hyp m f s) xs (m_secs m) 0 (0 + xsizes (head_entries m)) l ias0 secs l1 ias1 LN WS SM) as [Hs L1]; [cbn; lia|exact Es|].
  pose proof (part_app _ _ _ _ _ _ _ _ _ _ _ _ _ _ H0 Hs eq_refl) as H1. rewrite app_nil_r in H1.
  assert (LN1 : ln_ok l1) by apply Hs.
  destruct (ext_part m f s (m_ext m) l1 ias1 exts l2 ias2 (0 + xsizes (head_entries m ++ x_secs m 0 (m_secs m))) M LN1 K1 (w_ext _ M) Ee) as [He L2].
  apply (part_weaken m f _ (hyp m f s)) in He; [|intros T [Q _]; exact Q]. fold (x_exts m) in He.
  pose proof (part_app _ _ _ _ _ _ _ _ _ _ _ _ _ _ H1 He eq_refl) as H2. rewrite app_nil_r in H2. assert (LN2 : ln_ok l2) by apply He.
  assert (CB : zlen feat + zlen files + zlen secs + zlen exts = pub_base m).
  { assert (Q : zlen (((feat ++ files) ++ secs) ++ exts) = xsizes ((head_entries m ++ x_secs m 0 (m_secs m)) ++ x_exts m)) by apply H2. rewrite !zlen_app, !xsizes_app in Q. unfold pub_base, ext_base. lia. }
  rewrite CB in Ep. pose proof (pub_count _ _ _ _ _ _ _ _ _ _ _ Ep) as PC.
  destruct (pub_part m f s (c_pub s) 0 (pub_base m) l2 ias2 pubs cnt1 l3 ias3 M LN2 (L2 (L1 L18))) as [Hp CC]; try assumption.
  - rewrite (v_pub _ _ _ _ V). apply pub_wf; [assumption|apply (v_added _ _ _ _ V)|assumption].
  - apply (v_placed _ _ _ _ V).
  - unfold pub_base, ext_base. pose proof (xsizes_nonneg (x_exts m)). pose proof (xsizes_nonneg (head_entries m)). pose proof (xsizes_nonneg (x_secs m 0 (m_secs m))). lia.
  - rewrite <- PC. rewrite !zlen_app in B. pose proof (zlen_nonneg als). lia.
  - apply (part_weaken m f _ (hyp m f s)) in Hp; [|intros T [_ Q]; exact Q].
    assert (PB' : pub_base m = 0 + xsizes ((head_entries m ++ x_secs m 0 (m_secs m)) ++ x_exts m)) by (rewrite !xsizes_app; unfold pub_base, ext_base; lia).
    pose proof (part_app _ _ _ _ _ _ _ _ _ _ _ _ _ _ H2 Hp PB') as H3.
    pose proof (alias_part m f s (m_alias m) l3 als l4 (0 + xsizes (((head_entries m ++ x_secs m 0 (m_secs m)) ++ x_exts m) ++ x_pubs m (c_pub s) 0)) M) as Ha.
    specialize (Ha ltac:(apply Hp) K4 (w_alias _ M) Ea). apply (part_weaken m f _ (hyp m f s)) in Ha; [|intros T [Q _]; exact Q].
    pose proof (part_app _ _ _ _ _ _ _ _ _ _ _ _ _ _ H3 Ha eq_refl) as H4. rewrite app_nil_r in H4. rewrite EP in H4. split.
    + rewrite asked_split. rewrite <- !app_assoc in H4. exact H4.
    + rewrite CC, <- CB, !zlen_app. lia.
Qed.

(** * regions *)
Fixpoint seqd (lo : Z) (l : list (Z * Z)) (hi : Z) : Prop :=
  match l with [] => lo <= hi | r :: l => 0 <= snd r /\ (snd r = 0 /\ seqd lo l hi \/ lo <= fst r /\ seqd (fst r + snd r) l hi) end.
Lemma seqd_app a : forall lo mid b hi, seqd lo a mid -> seqd mid b hi -> seqd lo (a ++ b) hi.
Proof.
  induction a as [|r a IH]; intros lo mid b hi H1 H2; cbn [seqd app] in *.
  - revert lo H1. revert mid H2. induction b as [|r b IHb]; intros mid H2 lo H1; cbn [seqd] in *; [lia|]. destruct H2 as [N [[Z0 H2]|[L H2]]]; (split; [assumption|]); [left|right; split; [lia|assumption]]. split; [assumption|]. eapply IHb; eassumption.
  - destruct H1 as [N [[Z0 H1]|[L H1]]]; (split; [assumption|]); [left|right]; (split; [assumption|]); eapply IH; eassumption.
Qed.
Lemma seqd_low l : forall lo hi, seqd lo l hi -> Forall (fun r => snd r = 0 \/ lo <= fst r) l.
Proof.
  induction l as [|r l IH]; intros lo hi H; cbn [seqd] in H; constructor.
  - destruct H as [N [[Z0 H]|[L H]]]; tauto.
  - destruct H as [N [[Z0 H]|[L H]]]; [eauto|]. eapply Forall_impl; [|eapply IH; exact H]. intros x [Q|Q]; [now left|right; lia].
Qed.
Lemma seqd_apart l : forall lo hi, seqd lo l hi -> ForallOrdPairs apart l.
Proof.
  induction l as [|r l IH]; intros lo hi H; cbn [seqd] in H; constructor.
  - destruct H as [N [[Z0 H]|[L H]]].
    + apply Forall_forall. intros x _. now left.
    + eapply Forall_impl; [|eapply seqd_low; exact H]. intros x [Q|Q]; unfold apart; tauto.
  - destruct H as [N [[Z0 H]|[L H]]]; eauto.
Qed.
Definition sec_regions (v : secview) : list (Z * Z) := (match v_data v with Some _ => [(v_raw v, v_size v)] | None => [] end) ++ [(v_prel v, 10 * v_nrel v); (v_plin v, 6 * zlen (v_lines v))].
Lemma elines_zlen c : forall q start, zlen (elines c start q) = zlen q.
Proof. induction q as [|[n l|n o] q IH]; intros start; [reflexivity| |]; cbn [elines]; rewrite !zlen_cons; now rewrite IH. Qed.
Lemma seqd_one lo p n hi : 0 <= n -> (n = 0 /\ lo <= hi \/ lo <= p /\ p + n <= hi) -> seqd lo [(p, n)] hi.
Proof. intros N H. cbn [seqd fst snd]. tauto. Qed.
Lemma views_regions m s H : forall k P xs vs Q, views m s H k P xs vs Q -> seqd P (flat_map sec_regions vs) Q.
Proof.
  induction 1 as [k P|k P x xs v vs recs Q W V R VS IH]; [cbn; lia|]. cbn [flat_map]. eapply seqd_app; [|exact IH].
  unfold sec_regions. rewrite (vw_data _ _ _ _ _ _ _ _ V), (vw_raw _ _ _ _ _ _ _ _ V), (vw_size _ _ _ _ _ _ _ _ V), (vw_prel _ _ _ _ _ _ _ _ V), (vw_nrel _ _ _ _ _ _ _ _ V), (vw_plin _ _ _ _ _ _ _ _ V), (vw_lines _ _ _ _ _ _ _ _ V), elines_zlen.
  pose proof (raw_nonneg _ _ W) as R1. pose proof (padn_range P x) as R2. pose proof (nrels_nonneg x) as R3. pose proof (zlen_nonneg (asked_lines m x)) as R4.
  apply seqd_app with (mid := P + raw x + padn P x).
  { unfold praw, raw, raw_size in *. destruct (uninit x || (s_max x =? 0)) eqn:U; [cbn [seqd]; lia|]. apply orb_false_iff in U as [U1 U2]. rewrite U1. cbn [andb]. apply seqd_one; [lia|]. right. lia. }
  change [(prel P x, 10 * nrels x); (plin m P x, 6 * zlen (asked_lines m x))] with ([(prel P x, 10 * nrels x)] ++ [(plin m P x, 6 * zlen (asked_lines m x))]).
  apply seqd_app with (mid := P + raw x + padn P x + 10 * nrels x).
  { apply seqd_one; [lia|]. unfold prel. destruct (s_fix x) eqn:F; [rewrite (nrels_nil x F); left; lia|right; lia]. }
  apply seqd_one; [lia|]. unfold sz. destruct (Z.eq_dec (zlen (asked_lines m x)) 0) as [Z0|NZ]; [left; lia|]. right. unfold plin. unfold asked_lines, lines_on in NZ.
  destruct (s_lines x) as [q|] eqn:E; [|destruct (_ && _) in NZ; now cbn in NZ]. destruct (debug4 (m_opt m)) eqn:D4; [rewrite andb_false_r in NZ; now cbn in NZ|]. lia.
Qed.

(** * .sxdata *)
Definition handlers (m : module) (s : st) : list Z := flat_map (fun n => le_bytes 4 (c_idx s n)) (m_safeseh m).
Lemma sxs_none m H : forall xs k, (forall j, (k <= j)%nat -> is_sx m j = false) -> sxs m H k xs = xs.
Proof. induction xs as [|x xs IH]; intros k N; [reflexivity|]. cbn [sxs]. unfold sx. rewrite N by lia. rewrite IH; [reflexivity|]. intros j L. apply N. lia. Qed.
Lemma sxs_update m H a n0 r : m_safeseh m = n0 :: r -> forall xs k j, m_sx m = Some a -> a = (k + j)%nat -> sxs m H k xs = update j (set_buf H) xs.
Proof.
  intros Es. induction xs as [|x xs IH]; intros k j Ea E; [now destruct j|]. cbn [sxs]. unfold sx, is_sx. rewrite Es, Ea. destruct j as [|j]; cbn [update].
  - rewrite Nat.add_0_r in E. subst a. rewrite Nat.eqb_refl. f_equal. apply sxs_none. intros j L. unfold is_sx. rewrite Es, Ea. apply Nat.eqb_neq. lia.
  - destruct (Nat.eqb_spec k a); [lia|]. f_equal. apply IH; [assumption|lia].
Qed.
Lemma fill_spec m s xs xs' : fill_sxdata m s xs = Ok xs' -> xs' = sxs m (handlers m s) 0 xs.
Proof.
  unfold fill_sxdata, handlers. destruct (m_safeseh m) as [|n0 r] eqn:Es.
  - intros E. apply Ok_inj in E. subst. symmetry. apply sxs_none. intros j _. unfold is_sx. now rewrite Es.
  - destruct (m_sx m) as [a|] eqn:Ea; [|discriminate]. intros E. apply Ok_inj in E. subst xs'. rewrite <- Es. symmetry. eapply sxs_update; [exact Es|exact Ea|reflexivity].
Qed.
Lemma handlers_zlen m s : zlen (handlers m s) = 4 * zlen (m_safeseh m).
Proof. unfold handlers. induction (m_safeseh m) as [|n r IH]; [reflexivity|]. cbn [flat_map]. rewrite zlen_app, IH, zlen_cons. unfold zlen at 1. rewrite le_bytes_length. lia. Qed.
Lemma sx_all m s : module_ok m -> forall k x, nth_error (m_secs m) k = Some x -> sx_ok m (handlers m s) k x.
Proof.
  intros M k x N S0. assert (NS : m_safeseh m <> []) by (intros Q; unfold is_sx in S0; now rewrite Q in S0). destruct (w_sx _ M NS) as (a & y & E1 & E2 & E3 & E4 & E5 & E6 & E7 & _).
  assert (k = a). { unfold is_sx in S0. destruct (m_safeseh m); [congruence|]. rewrite E1 in S0. now apply Nat.eqb_eq. } subst a. rewrite N in E2. injection E2 as <-.
  rewrite handlers_zlen. repeat split; assumption || lia.
Qed.

(** * lines, chain *)
Lemma lines_lift m T c : (forall n, In n (queue m) -> designates m T (c n) n /\ 0 <= c n < 2 ^ 32) -> forall q start, Forall (line_ok m) q -> lines_ok m T start q (elines c start q).
Proof.
  intros HC. induction q as [|[n l|num ofs] q IH]; intros start F; cbn [elines lines_ok]; [exact Logic.I| |]; inversion F as [|? ? F1 F2]; subst.
  - split; [reflexivity|]. cbn [line_ok] in F1. destruct (HC n F1) as [D R]. rewrite Z.mod_small by assumption. split; [assumption|]. now apply IH.
  - cbn [line_ok] in F1. split; [now apply Z.mod_small|]. split; [reflexivity|]. now apply IH.
Qed.
Lemma chain_lift l : Forall (fun ie => 0 <= fst ie < 2 ^ 32) l -> vchain (map (fun ie : Z * entry => (fst ie, e_value (snd ie))) l) -> chain l.
Proof.
  induction 1 as [|[i e] l R F IH]; intros V; [exact Logic.I|]. cbn [map vchain chain fst snd] in *. destruct V as [V1 V2]. split; [|auto]. rewrite V1. destruct F as [|[j e'] l R' F]; [reflexivity|]. cbn [map fst hd] in *. now apply Z.mod_small.
Qed.
Lemma fvals_off m s : lines_on (m_opt m) = false -> forall q file i, fvals m s q file i = [].
Proof. intros L. induction q as [|p q IH]; intros file i; [reflexivity|]. cbn [fvals]. rewrite L. cbn [andb]. apply IH. Qed.
Lemma views_nth m s H : forall k P xs vs Q, views m s H k P xs vs Q -> length vs = length xs /\ forall j x, nth_error xs j = Some x -> exists v recs P', nth_error vs j = Some v /\ section_wf m x /\ view m (c_idx s) H (k + j) P' x v recs /\ Forall2 (reloc_rec m s (s_use64 x)) (needs x) recs.
Proof.
  induction 1 as [k P|k P x xs v vs recs Q W V R VS [IH1 IH2]].
  - split; [reflexivity|]. intros [|j] x Hx; discriminate.
  - split; [cbn [length]; now rewrite IH1|]. intros [|j] y Hy; cbn [nth_error] in *.
    + injection Hy as <-. exists v, recs, P. rewrite Nat.add_0_r. exact (conj eq_refl (conj W (conj V R))).
    + destruct (IH2 j y Hy) as (v' & recs' & P' & A1 & A2 & A3 & A4). exists v', recs', P'. replace (k + S j)%nat with (S k + j)%nat by lia. exact (conj A1 (conj A2 (conj A3 A4))).
Qed.

(** * the file *)
Definition file_ok (m : module) (f : list Z) (o : object) : Prop :=
  let T := o_syms o in
  o_machine o = (if m_use64 m then 0x8664 else 0x14c) /\
  (length (o_secs o) = length (m_secs m) /\ forall k s, nth_error (m_secs m) k = Some s -> exists v, nth_error (o_secs o) k = Some v /\ section_ok m T k s v) /\
  Forall2 (entry_ok m f T) (asked_symbols m) T /\ chain (filter is_file T) /\ ForallOrdPairs apart (regions o).
Lemma new_refs_private m : forall rs seen, Forall (fun n => private m n = true) (new_refs m rs seen).
Proof. induction rs as [|[|n|k|v] rs IH]; intros seen; cbn [new_refs]; try constructor; try apply IH. destruct (private m n && _) eqn:E; [|apply IH]. constructor; [|apply IH]. apply andb_prop in E. tauto. Qed.
Lemma private_known m n : private m n = true -> (n < length (m_syms m))%nat.
Proof. intros P. destruct (Nat.lt_ge_cases n (length (m_syms m))) as [L|L]; [exact L|]. exfalso. unfold private, sym in P. rewrite nth_overflow in P by exact L. discriminate. Qed.
Lemma head_fields a b c d e : let h := le_bytes 2 a ++ le_bytes 2 b ++ le_bytes 4 c ++ le_bytes 4 d ++ le_bytes 4 e ++ le_bytes 2 0 ++ le_bytes 2 0 in
  zlen h = 20 /\ field 0 2 h = a mod 2 ^ 16 /\ field 2 2 h = b mod 2 ^ 16 /\ field 8 4 h = d mod 2 ^ 32 /\ field 12 4 h = e mod 2 ^ 32 /\ field 16 2 h = 0.
Proof.
  intros h. split. { subst h. unfold zlen. now rewrite !app_length, !le_bytes_length. }
  assert (F : forall a n v b, h = a ++ le_bytes n v ++ b -> field (length a) n h = v mod 2 ^ (8 * Z.of_nat n)). { intros a0 n0 v b0 ->. now apply field_le. }
  subst h. repeat split.
  - exact (F [] 2%nat a _ eq_refl).
  - specialize (F (le_bytes 2 a) 2%nat b). rewrite !le_bytes_length in F. eapply F. reflexivity.
  - specialize (F (le_bytes 2 a ++ le_bytes 2 b ++ le_bytes 4 c) 4%nat d). rewrite !app_length, !le_bytes_length in F. eapply F. rewrite <- !app_assoc. reflexivity.
  - specialize (F (le_bytes 2 a ++ le_bytes 2 b ++ le_bytes 4 c ++ le_bytes 4 d) 4%nat e). rewrite !app_length, !le_bytes_length in F. eapply F. rewrite <- !app_assoc. reflexivity.
Qed.
Lemma header_name_length l name old nm l' : length old = 8%nat -> header_name l name old = (nm, l') -> length nm = 8%nat.
Proof.
  intros LO. unfold header_name. destruct (zlen name <=? 8).
  - intros E. apply pair_equal_spec in E as [<- _]. rewrite firstn_length, app_length, repeat_length. lia.
  - destruct (Coff_AllocString l name) as [ofs l2]. cbv zeta. intros E. apply pair_equal_spec in E as [<- _]. rewrite firstn_length, app_length, skipn_length, LO. lia.
Qed.
Lemma headers_length o : forall ss P l old hs l' xs, length old = 8%nat -> section_headers o ss P l old = Ok (hs, l', xs) -> zlen hs = 40 * zlen ss.
Proof.
  induction ss as [|s ss IH]; intros P l old hs l' xs LO EH; cbn [section_headers] in EH.
  - apply Ok_inj in EH. repeat (apply pair_equal_spec in EH as [EH ?]). subst. reflexivity.
  - destruct (section_header o s P l old) as [[[[[h nm] l1] fo] x]| |] eqn:E1; cbn [bindr] in EH; try discriminate.
    destruct (section_headers o ss fo l1 nm) as [[[hs1 l2] xs1]| |] eqn:E2; cbn [bindr] in EH; try discriminate.
    apply Ok_inj in EH. repeat (apply pair_equal_spec in EH as [EH ?]). subst. rewrite zlen_app, zlen_cons.
    destruct (header_shape _ _ _ _ _ _ _ _ _ _ E1) as (En & _). pose proof (header_name_length _ _ _ _ _ LO En) as LN. rewrite (IH _ _ _ _ _ _ LN E2).
    assert (LH : zlen h = 40); [|lia]. revert E1. unfold section_header. destruct (section_name o s) as [sn st]. cbn [fst] in En. rewrite En. destruct (characteristics s st P) as [[[c size] ptr] t].
    destruct (absolute_fixups _ _ _) as [buf| |]; cbn [bindr]; try discriminate. destruct (match s_fix s with [] => _ | _ => _ end) as [[[a b] c0] d]. destruct (match s_lines s with Some q => _ | None => _ end) as [[e f] g].
    intros E. apply Ok_inj in E. repeat (apply pair_equal_spec in E as [E ?]). rewrite <- E. unfold zlen. now rewrite !app_length, !le_bytes_length, LN.
Qed.
(** no record is empty *)
Definition full (rs : list (list Z)) : Prop := Forall (fun r => r <> []) rs.
Lemma full_concat rs : full rs -> zlen rs <= zlen (concat rs).
Proof. induction 1 as [|r rs N F IH]; [reflexivity|]. cbn [concat]. rewrite zlen_cons, zlen_app. destruct r; [congruence|]. rewrite zlen_cons. pose proof (zlen_nonneg r). lia. Qed.
Lemma full_len n (r : list Z) : length r = S n -> r <> []. Proof. now destruct r. Qed.
Lemma full_symbol nm v sec ty cl aux : coff_write_symbol nm v sec ty cl aux <> []. Proof. apply (full_len 17), symbol_length. Qed.
Lemma full_put i n v bs ias : put i (le_bytes (S n) v ++ bs) ias <> [].
Proof. unfold put. intros E. apply app_eq_nil in E as [_ E]. apply app_eq_nil in E as [E _]. discriminate. Qed.
Lemma full_put' i n v ias : put i (le_bytes (S n) v) ias <> []. Proof. pose proof (full_put i n v [] ias) as H. now rewrite app_nil_r in H. Qed.
Lemma full_file_aux : forall n p, full (file_aux n p).
Proof. induction n as [|n IH]; intros p; cbn [file_aux]; constructor; [|apply IH]. apply (full_len 17). rewrite firstn_length, app_length, repeat_length. lia. Qed.
Lemma full_file name v : full (file_entry name v). Proof. unfold file_entry. constructor; [apply full_symbol|apply full_file_aux]. Qed.
Lemma full_secs o : forall xs i l ias rs l' j, section_entries o xs i l ias = Ok (rs, l', j) -> full rs.
Proof.
  induction xs as [|x xs IH]; intros i l ias rs l' j E; cbn [section_entries] in E.
  - apply Ok_inj in E. injection E as <- _ _. constructor.
  - destruct (alloc_name l (fst (section_name o x))) as [nm l1]. cbv zeta in E. destruct (_ || _).
    + destruct (section_aux o x) as [a| |] eqn:Ea; cbn [bindr] in E; try discriminate. destruct (section_entries o xs (i + 1) l1 a) as [[[r l2] k]| |] eqn:Er; cbn [bindr] in E; try discriminate.
      apply Ok_inj in E. apply pair_equal_spec in E as [E _]. apply pair_equal_spec in E as [<- _]. constructor; [apply full_symbol|]. constructor; [|eapply IH; exact Er].
      unfold section_aux in Ea. destruct (if s_comdat x =? 0 then _ else _); cbn [bindr] in Ea; try discriminate. apply Ok_inj in Ea. subst a. discriminate.
    + destruct (section_entries o xs (i + 1) l1 ias) as [[[r l2] k]| |] eqn:Er; cbn [bindr] in E; try discriminate.
      apply Ok_inj in E. apply pair_equal_spec in E as [E _]. apply pair_equal_spec in E as [<- _]. constructor; [apply full_symbol|]. eapply IH; exact Er.
Qed.
Lemma full_exts m s : forall es l ias rs l' j, ext_entries m s es l ias = (rs, l', j) -> full rs.
Proof.
  induction es as [|e es IH]; intros l ias rs l' j E; cbn [ext_entries] in E.
  - injection E as <- _ _. constructor.
  - destruct (skipped (sym m e)); [eapply IH; exact E|]. destruct (alloc_name l (y_name (sym m e))) as [nm l1]. cbv zeta in E. destruct (y_alt (sym m e)) as [a|].
    + destruct (weak_ext (sym m e)).
      * destruct (ext_entries m s es l1 (weak_aux (c_idx s a) 2)) as [[r l2] k] eqn:Er. apply pair_equal_spec in E as [E _]. apply pair_equal_spec in E as [<- _]. constructor; [apply full_symbol|]. constructor; [apply (full_len 17), weak_aux_length|eapply IH; exact Er].
      * destruct (ext_entries m s es l1 ias) as [[r l2] k] eqn:Er. apply pair_equal_spec in E as [E _]. apply pair_equal_spec in E as [<- _]. constructor; [apply full_symbol|]. eapply IH; exact Er.
    + destruct (ext_entries m s es l1 ias) as [[r l2] k] eqn:Er. apply pair_equal_spec in E as [E _]. apply pair_equal_spec in E as [<- _]. constructor; [apply full_symbol|]. eapply IH; exact Er.
Qed.
Lemma full_alias m s : forall al l rs l', alias_entries m s al l = (rs, l') -> full rs.
Proof.
  induction al as [|[n sb] al IH]; intros l rs l' E; cbn [alias_entries] in E.
  - injection E as <- _. constructor.
  - destruct (alloc_name l (y_name (sym m n))) as [nm l1]. cbv zeta in E. destruct (alias_entries m s al l1) as [r l2] eqn:Er. apply pair_equal_spec in E as [<- _]. constructor; [apply full_symbol|]. constructor; [apply (full_len 17), weak_aux_length|eapply IH; exact Er].
Qed.
Lemma full_pubs m s : forall q lastfile cnt l ias recs cnt' l' ias', pub_entries m s q lastfile cnt l ias = (recs, cnt', l', ias') -> full recs.
Proof.
  induction q as [|p q IH]; intros lastfile cnt l ias recs cnt' l' ias' E.
  - cbn [pub_entries] in E. injection E as <- _ _ _. constructor.
  - pose proof (pub_entries_cons m s p q lastfile cnt l ias) as EQ. cbn zeta in EQ. destruct (alloc_name l (y_name (sym m p))) as [nm l1]. rewrite EQ in E. clear EQ.
    destruct (lines_on (m_opt m) && y_proc (sym m p)).
    + match type of E with context [pub_entries m s q ?a ?b ?c ?d] => destruct (pub_entries m s q a b c d) as [[[rs c'] l2] j] eqn:Er end.
      apply IH in Er. apply pair_equal_spec in E as [E _]. apply pair_equal_spec in E as [E _]. apply pair_equal_spec in E as [E _]. rewrite <- E. cbn [andb].
      apply Forall_app. split; [destruct (negb _); [apply full_file|constructor]|]. cbn [app].
      repeat (apply Forall_cons; [first [apply full_symbol|apply full_put|apply full_put'|unfold put at 1; apply full_put'|idtac]|]); try exact Er.
    + match type of E with context [pub_entries m s q ?a ?b ?c ?d] => destruct (pub_entries m s q a b c d) as [[[rs c'] l2] j] eqn:Er end.
      apply IH in Er. apply pair_equal_spec in E as [E _]. apply pair_equal_spec in E as [E _]. apply pair_equal_spec in E as [E _]. rewrite <- E. constructor; [apply full_symbol|exact Er].
Qed.
Lemma full_symbols m xs s l recs cnt l' : coff_write_symbols m xs s l = Ok (recs, cnt, l') -> full recs.
Proof.
  unfold coff_write_symbols. cbn zeta. set (files := if no_file_entry (m_opt m) then [] else _). set (ias0 := match files with [] => m_ias m | _ :: r => last_aux r (m_ias m) end).
  destruct (section_entries (m_opt m) xs 1 l ias0) as [[[secs l1] ias1]| |] eqn:Es; cbn [bindr]; try discriminate.
  destruct (ext_entries m s (m_ext m) l1 ias1) as [[exts l2] ias2] eqn:Ee.
  match goal with |- context [pub_entries m s ?a ?b ?c ?d ?e] => destruct (pub_entries m s a b c d e) as [[[pubs cnt1] l3] ias3] eqn:Ep end.
  destruct (alias_entries m s (m_alias m) l3) as [als l4] eqn:Ea. intros E. apply Ok_inj in E. apply pair_equal_spec in E as [E _]. apply pair_equal_spec in E as [<- _].
  unfold full. rewrite !Forall_app. split. { unfold feat_entry. destruct (safeseh (m_opt m)); [constructor; [apply full_symbol|constructor]|constructor]. }
  split. { unfold files. destruct (no_file_entry (m_opt m)); [constructor|apply full_file]. }
  split; [eapply full_secs; exact Es|]. split; [eapply full_exts; exact Ee|]. split; [eapply full_pubs; exact Ep|eapply full_alias; exact Ea].
Qed.
Theorem module_file m f : module_ok m -> coff_write_module m = Ok f -> zlen f < 2 ^ 32 -> exists o, rd_object f = Some o /\ file_ok m f o.
Proof.
  intros M E B. unfold coff_write_module in E.
  destruct (section_headers (m_opt m) (m_secs m) (start_data m) _ (m_ish m)) as [[[hs l1] xs]| |] eqn:EH; cbn [bindr] in E; try discriminate.
  unfold coff_write_data in E. destruct (SetSymbolIndices m) as [[index s0]| |] eqn:EI; cbn [bindr] in E; try discriminate.
  destruct (fill_sxdata m s0 xs) as [xs'| |] eqn:EF; cbn [bindr] in E; try discriminate. apply fill_spec in EF. subst xs'.
  destruct (write_data m (sxs m (handlers m s0) 0 xs) 0 index s0) as [[data sF]| |] eqn:ED; cbn [bindr] in E; try discriminate.
  destruct (coff_write_symbols m (sxs m (handlers m s0) 0 xs) sF l1) as [[[recs cnt] L]| |] eqn:EY; cbn [bindr] in E; try discriminate.
  apply Ok_inj in E. set (head := le_bytes 2 _ ++ _) in E.
  destruct (w_secs _ M) as (WS & NE & SB). destruct (w_vars _ M) as (_ & LI & _).
  assert (SD : start_data m = 20 + 40 * zlen (m_secs m)). { unfold start_data. pose proof (zlen_nonneg (m_secs m)). rewrite wrap_small; lia. }
  destruct (init_spec m index s0 M EI) as (V0 & D0 & SF0 & VC).
  assert (B' : zlen head + zlen hs + zlen data + zlen (concat recs) + zlen (string_table L) < 2 ^ 32) by (rewrite <- E, !zlen_app in B; lia).
  assert (ZS : zlen (string_table L) = 4 + zlen (packed L)). { unfold string_table. rewrite zlen_app. unfold packed. unfold zlen at 1. rewrite le_bytes_length. reflexivity. }
  assert (ZH : zlen head = 20). { unfold head. unfold zlen. now rewrite !app_length, !le_bytes_length. }
  pose proof (zlen_nonneg hs). pose proof (zlen_nonneg data). pose proof (zlen_nonneg (concat recs)). pose proof (zlen_nonneg (packed L)). pose proof (zlen_nonneg (m_secs m)).
  pose proof (headers_length _ _ _ _ _ _ _ _ LI EH) as HS.
  set (H' := handlers m s0) in *. set (nf := fun p => next_file (c_dbg s0 p)) in *.
  destruct (secs_spec m nf H' M (m_secs m) 0 {| l_size := 4; l_items := [] |} (m_ish m) (start_data m) 0 index s0 [] [] [] hs l1 xs data sF WS) as (LN1 & X1 & SM & KP & SFF & (index' & VF) & (G & EG & DF) & hl & EHL & FHL & LHL & RD);
    try assumption; try reflexivity; try lia.
  { intros j s Hj. cbn [Nat.add]. now apply sx_all. }
  { change (zlen (packed {| l_size := 4; l_items := [] |})) with 0. exact (w_names _ M). }
  { constructor. }
  { cbn [pnames map app]. replace (map gname (flat_map (fun s => groups (asked_lines m s)) (m_secs m))) with (map (fun '(n, _, _) => n) (all_groups m)); [apply (w_groups _ M)|]. unfold all_groups. apply map_ext. now intros [[n l] g]. }
  cbn [app] in *. rewrite app_nil_r in VF. fold (asked_refs m) in VF. set (added := new_refs m (asked_refs m) (statics m)) in *.
  assert (EP : c_pub sF = asked_pubs m) by exact (v_pub _ _ _ _ VF).
  assert (KN : Forall (fun n => (n < length (m_syms m))%nat) added). { eapply Forall_impl; [|apply new_refs_private]. intros n Q. now apply private_known. }
  assert (ZR : zlen recs < 2 ^ 32).
  { pose proof (full_concat _ (full_symbols _ _ _ _ _ _ _ EY)). lia. }
  destruct (symbols_part m f (sxs m H' 0 xs) sF l1 recs cnt L index' added M LN1 SM VF KN EP (dbg_count m nf G sF data EG DF) EY ZR) as [PT EC].
  destruct PT as (LNL & XL & ZX & PT). assert (FL : final L) by (split; [assumption|lia]).
  destruct (PT L (ext_refl L) FL) as (T & PS & MT & FT & AX).
  pose proof (parsed_length _ _ _ _ PS) as P18. pose proof (concat_length _ P18) as ZC.
  set (A := head ++ hs) in *. set (R := concat recs ++ string_table L) in *.
  assert (Ef : f = A ++ data ++ R) by (unfold A, R; rewrite <- E, <- !app_assoc; reflexivity).
  assert (LA : zlen A = start_data m) by (unfold A; rewrite zlen_app; lia).
  assert (XB : xsizes (asked_symbols m) < 2 ^ 32 - 2) by lia.
  (* indices *)
  assert (IQ : forall n, In n (queue m) -> target m T (c_idx sF n) n /\ 0 < c_idx sF n).
  { intros n Q. destruct (pub_target m index' sF added T n VF EP MT) as [Q1 Q2]; [rewrite (v_pub _ _ _ _ VF); apply in_or_app; now left|]. split; [exact Q1|].
    unfold pub_base, ext_base in Q2. rewrite head_size, secs_size in Q2. pose proof (xsizes_nonneg (x_exts m)). pose proof (xsizes_nonneg (head_entries m)) as Hh. rewrite head_size in Hh.
    destruct (m_secs m) as [|x r]; [congruence|]. rewrite zlen_cons in Q2. pose proof (zlen_nonneg r). destruct (no_section_aux (m_opt m)); lia. }
  assert (IH' : idx_hyp m sF T). { intros n X. destruct (exported_target m index' sF added T n VF EP MT X) as [Q1 Q2]. split; [assumption|lia]. }
  assert (DH : dbg_hyp m f sF T).
  { rewrite Ef. apply (dbg_ok m nf G sF data A R T EG DF LA); [rewrite <- Ef; exact B|]. intros q Q. rewrite (pnames_groups m G EG) in Q.
    assert (Qq : In q (queue m)).
    { apply in_map_iff in Q as ([[n l] g] & <- & Q). unfold all_groups in Q. apply in_flat_map in Q as (x & Q1 & Q2). rewrite Forall_forall in WS. pose proof (groups_names m _ (proj1 (asked_lines_ok m x (WS x Q1)))) as F. rewrite Forall_forall in F. exact (F _ Q2). }
    destruct (IQ q Qq) as [[Q1 Q2] Q3]. split; [assumption|lia]. }
  pose proof (entries_ok m f T 0 _ _ MT (AX T (conj IH' DH))) as EO.
  destruct (RD A R L LA XL FL) as (vs & RV & VV). rewrite <- Ef in RV.
  assert (CP : 0 < zlen recs). { rewrite ZX, asked_split, !xsizes_app. pose proof (xsizes_nonneg (head_entries m)). pose proof (xsizes_nonneg (x_exts m)). pose proof (xsizes_nonneg (x_pubs m (asked_pubs m) 0)). pose proof (xsizes_nonneg (map (x_alias m) (m_alias m))).
    rewrite secs_size. destruct (m_secs m) as [|x r]; [congruence|]. rewrite zlen_cons. pose proof (zlen_nonneg r). destruct (no_section_aux (m_opt m)); lia. }
  destruct (head_fields (if m_use64 m then 0x8664 else 0x14c) (zlen (m_secs m)) (m_time m) (if cnt =? 0 then 0 else start_data m + zlen data) cnt) as (F0 & F1 & F2 & F3 & F4 & F5).
  cbv zeta in F0, F1, F2, F3, F4, F5. fold head in F0, F1, F2, F3, F4, F5.
  rewrite (Z.mod_small (zlen (m_secs m))) in F2 by lia. rewrite (Z.mod_small cnt) in F4 by lia.
  assert (F3' : field 8 4 head = start_data m + zlen data). { rewrite F3. destruct (Z.eqb_spec cnt 0); [lia|]. apply Z.mod_small. unfold A in LA. rewrite zlen_app in LA. lia. }
  set (o := {| o_machine := field 0 2 head; o_secs := vs; o_syms := T; o_psym := start_data m + zlen data; o_nsyms := cnt; o_strs := string_table L |}).
  assert (RO : rd_object f = Some o).
  { unfold rd_object. rewrite <- E at 1. rewrite slice0 by (symmetry; exact F0). cbv zeta. rewrite F2, F3', F4.
    assert (S1 : slice (start_data m + zlen data) (cnt * 18) f = Some (concat recs)).
    { rewrite Ef. unfold R. rewrite app_assoc. apply slice_app; [rewrite zlen_app; lia|lia]. }
    rewrite S1.
    assert (S2 : skipn (Z.to_nat (start_data m + zlen data + cnt * 18)) f = string_table L).
    { rewrite Ef. unfold R. rewrite !app_assoc. replace (Z.to_nat (start_data m + zlen data + cnt * 18)) with (length ((A ++ data) ++ concat recs)).
      - rewrite skipn_app, skipn_all, Nat.sub_diag. reflexivity.
      - rewrite !app_length. unfold zlen in *. lia. }
    rewrite S2. rewrite (parsed_read L 0 recs T PS) by (unfold zlen in *; lia).
    assert (S3 : rd_table f 20 (zlen (m_secs m)) 40 = Some hl).
    { rewrite <- E, EHL. replace (zlen (m_secs m)) with (zlen hl) by (unfold zlen; now rewrite LHL). apply rd_table_at; [now symmetry|exact FHL|lia]. }
    rewrite S3, RV, F5. reflexivity. }
  exists o. split; [exact RO|]. unfold file_ok. cbn [o o_machine o_secs o_syms].
  split. { rewrite F1. destruct (m_use64 m); reflexivity. }
  destruct (views_nth _ _ _ _ _ _ _ _ VV) as [LV NV].
  split.
  { split; [exact LV|]. intros k x Hx. destruct (NV k x Hx) as (v & rr & P & N1 & Wx & VW & FR). cbn [Nat.add] in VW. exists v. split; [exact N1|]. unfold section_ok.
    rewrite (vw_name _ _ _ _ _ _ _ _ VW), (vw_char _ _ _ _ _ _ _ _ VW), (vw_size _ _ _ _ _ _ _ _ VW), (vw_data _ _ _ _ _ _ _ _ VW), (vw_relocs _ _ _ _ _ _ _ _ VW), (vw_lines _ _ _ _ _ _ _ _ VW).
    do 3 (split; [reflexivity|]). split; [|split].
    - destruct (uninit x || (s_max x =? 0)); [reflexivity|]. exists (dat m H' k x). split; [reflexivity|]. unfold dat. destruct (is_sx m k) eqn:K; [|reflexivity].
      unfold handlers_ok, H', handlers. exists (map (c_idx s0) (m_safeseh m)). split; [|rewrite flat_map_concat_map, flat_map_concat_map, map_map; reflexivity].
      assert (NS : m_safeseh m <> []) by (intros Q; unfold is_sx in K; now rewrite Q in K). destruct (w_sx _ M NS) as (_ & _ & _ & _ & _ & _ & _ & _ & _ & FX).
      clear -FX KP V0 VF EP MT M. induction FX as [|n r X F IHX]; cbn [map]; constructor; [|exact IHX].
      assert (ST : settled m s0 n).
      { unfold exported in X. destruct (y_state (sym m n)) eqn:Y; [eapply in_queue_settled; eassumption| |destruct X]. unfold settled, is_internal. rewrite Y. reflexivity. }
      destruct (KP n ST) as [_ <-]. apply (exported_target m index' sF added T n VF EP MT X).
    - destruct (w_fix _ _ Wx) as [WF _]. assert (FN : Forall (fun f => fixup_ok m f /\ is_none f = false) (needs x)).
      { unfold needs. apply Forall_forall. intros g Ig. apply filter_In in Ig as [I1 I2]. rewrite Forall_forall in WF. split; [now apply WF|]. now apply negb_true_iff. }
      clear -FR FN VF EP MT XB. induction FR as [|g r gs rs HR FR IHR]; cbn [map]; constructor.
      + pose proof (Forall_inv FN) as [X1 X2]. destruct HR as (t & T1 & T2 & -> & T3). rewrite rd_reloc_fixup. destruct (ref_target m index' sF added T g VF EP MT X1 X2 T3) as [Q1 Q2].
        unfold reloc_ok. rewrite !Z.mod_small by (try apply X1; lia). repeat split; try assumption.
      + apply IHR. exact (Forall_inv_tail FN).
    - apply lines_lift; [|apply (proj1 (asked_lines_ok m x Wx))]. intros n Q. destruct (IQ n Q) as [[Q1 Q2] Q3]. split; [assumption|lia]. }
  split; [exact EO|]. split.
  { apply chain_lift.
    - apply Forall_forall. intros [i e] Q. apply filter_In in Q as [Q _]. pose proof (matches_bound _ _ _ MT _ _ Q). cbn [fst]. lia.
    - change (vchain (files_of T)). rewrite FT.
      assert (FE : fvals m sF (asked_pubs m) 0 (pub_base m) = files0 m s0).
      { unfold asked_pubs, files0. fold added. rewrite fvals_plain.
        - apply fvals_cong. intros p. rewrite (dbg_next_file m nf G sF data DF). reflexivity.
        - eapply Forall_impl; [|apply (v_added _ _ _ _ VF)]. intros n [_ Q]. exact Q. }
      rewrite FE. unfold main_file. destruct (no_file_entry (m_opt m)); [exact VC|]. cbn [app vchain]. split; [|exact VC]. f_equal. destruct (line_numbers (m_opt m)) eqn:Ln; [now rewrite SFF|].
      rewrite <- FE, fvals_off; [reflexivity|]. unfold lines_on. now rewrite Ln. }
  apply (seqd_apart _ 0 (zlen f)). unfold regions. cbn [o o_secs o_psym o_nsyms o_strs].
  assert (NVS : zlen vs = zlen (m_secs m)) by (unfold zlen; now rewrite LV). rewrite NVS.
  cbn [seqd fst snd]. split; [lia|]. right. split; [lia|]. replace (0 + (20 + 40 * zlen (m_secs m))) with (start_data m) by lia.
  apply seqd_app with (mid := start_data m + zlen data); [exact (views_regions _ _ _ _ _ _ _ _ VV)|].
  cbn [seqd fst snd]. split; [lia|]. right. split; [lia|]. split; [lia|]. right. split; [lia|]. rewrite Ef, zlen_app, zlen_app. unfold R. rewrite zlen_app. lia.
Qed.
