(** C16, C17: line numbers. *)
From Verif Require Import Base Coff_Model Coff_Spec CoffStr_Proofs CoffSym_Proofs CoffEnt_Proofs CoffPub_Proofs CoffIdx_Proofs CoffRel_Proofs Data_Proofs RecordInit_Proofs.
From Coq Require Import Lia.

Definition group := (nat * Z * list (Z * Z))%type.
Definition gname (g : group) : nat := fst (fst g).
Definition unf (g : group) : list lineitem := LProc (gname g) (snd (fst g)) :: map (fun '(n, o) => LLine n o) (snd g).
Lemma unfold_groups : forall q, q = map (fun '(n, o) => LLine n o) (group_lines q) ++ flat_map unf (groups q).
Proof.
  induction q as [|[n l|n o] q IH]; cbn [group_lines groups map flat_map app]; [reflexivity| |].
  - unfold unf at 1. cbn [gname fst snd app]. f_equal. exact IH.
  - f_equal. exact IH.
Qed.
Lemma lines_groups q : match q with LLine _ _ :: _ => False | _ => True end -> q = flat_map unf (groups q).
Proof. intros H. rewrite (unfold_groups q) at 1. destruct q as [|[n l|n o] q]; [reflexivity|reflexivity|destruct H]. Qed.

(** groups with the file position of their first record *)
Definition pgroup := (group * Z)%type.
Definition pnames (G : list pgroup) : list nat := map (fun g => gname (fst g)) G.
Definition dspec (nf : nat -> Z) (c : nat -> Z) (G : list pgroup) (p : nat) : debug :=
  match find (fun g => Nat.eqb (gname (fst g)) p) G with
  | Some ((_, l, g), pos) =>
      {| start_line := l; end_line := last (map fst g) 0; ln_fileofs := pos; ln_count := wrap 16 (1 + zlen g);
         next_proc := match follower p (pnames G) with Some q => wrap 32 (c q) | None => 0 end; next_file := nf p |}
  | None => {| start_line := 0; end_line := 0; ln_fileofs := 0; ln_count := 0; next_proc := 0; next_file := nf p |}
  end.
Definition last_opt (l : list nat) : option nat := match l with [] => None | x :: r => Some (last r x) end.
Record dinv (m : module) (nf : nat -> Z) (G : list pgroup) (s : st) (D : list Z) : Prop := {
  d_dbg : forall p, c_dbg s p = dspec nf (c_idx s) G p;
  d_last : c_lastproc s = last_opt (pnames G);
  d_nodup : NoDup (pnames G);
  d_pos : Forall (fun g => exists off, snd g = wrap 32 (start_data m + off) /\ slice off 6 D = Some (le_bytes 4 (c_idx s (gname (fst g))) ++ le_bytes 2 0)) G }.

Lemma last_cons {A} (l : list A) : forall z d, last (z :: l) d = last l z.
Proof. induction l as [|w l IH]; intros z d; [reflexivity|]. change (last (w :: l) d = last (w :: l) z). now rewrite !IH. Qed.
Definition line_bytes (start : Z) (x : Z * Z) : list Z := le_bytes 4 (snd x) ++ le_bytes 2 (if wrap 16 (fst x - start) =? 0 then 0x7fff else wrap 16 (fst x - start)).
Definition run_dbg (d : debug) (g : list (Z * Z)) : debug :=
  fold_left (fun d x => {| start_line := start_line d; end_line := fst x; ln_fileofs := ln_fileofs d; ln_count := wrap 16 (ln_count d + 1); next_proc := next_proc d; next_file := next_file d |}) g d.
Definition with_dbg (s : st) (dbg : nat -> debug) (lp : option nat) : st :=
  {| c_idx := c_idx s; c_inc := c_inc s; c_pub := c_pub s; c_dbg := dbg; c_lastproc := lp; c_start_files := c_start_files s |}.
Lemma run_dbg_start d g : start_line (run_dbg d g) = start_line d.
Proof. revert d. induction g as [|x g IH]; intros d; [reflexivity|]. cbn [run_dbg fold_left]. fold (run_dbg {| start_line := start_line d; end_line := fst x; ln_fileofs := ln_fileofs d; ln_count := wrap 16 (ln_count d + 1); next_proc := next_proc d; next_file := next_file d |} g). now rewrite IH. Qed.
Lemma run_dbg_spec g : forall d, wrap 16 (ln_count d) = ln_count d ->
  run_dbg d g = {| start_line := start_line d; end_line := last (map fst g) (end_line d); ln_fileofs := ln_fileofs d; ln_count := wrap 16 (ln_count d + zlen g); next_proc := next_proc d; next_file := next_file d |}.
Proof.
  induction g as [|x g IH]; intros d H.
  - cbn [run_dbg fold_left map last]. unfold zlen. cbn [length]. rewrite Z.add_0_r, H. destruct d; reflexivity.
  - cbn [run_dbg fold_left]. match goal with |- fold_left _ g ?e = _ => change (run_dbg e g = {| start_line := start_line d; end_line := last (map fst (x :: g)) (end_line d); ln_fileofs := ln_fileofs d; ln_count := wrap 16 (ln_count d + zlen (x :: g)); next_proc := next_proc d; next_file := next_file d |}) end.
    rewrite IH by (cbn [ln_count]; apply wrap_wrap; lia). cbn [start_line end_line ln_fileofs ln_count next_proc next_file]. f_equal.
    + cbn [map]. symmetry. apply last_cons.
    + rewrite zlen_cons. unfold wrap. rewrite Zplus_mod_idemp_l. f_equal. lia.
Qed.
(** a run of lines after their procedure; with the state given up to pointwise equality *)
Lemma write_run start n : forall g q off s bs s',
  write_lines (map (fun '(n, o) => LLine n o) g ++ q) start off (Some n) s = Ok (bs, s') ->
  exists dbg, (forall p, dbg p = if Nat.eqb p n then run_dbg (c_dbg s n) g else c_dbg s p) /\
  exists bs1, write_lines q start (off + 6 * zlen g) (Some n) (with_dbg s dbg (c_lastproc s)) = Ok (bs1, s') /\
  bs = flat_map (line_bytes (start_line (c_dbg s n))) g ++ bs1.
Proof.
  induction g as [|[num ofs] g IH]; intros q off s bs s' E; cbn [map app] in E.
  - exists (c_dbg s). split. { intros p. destruct (Nat.eqb_spec p n); [now subst|reflexivity]. } exists bs. split; [|reflexivity]. unfold zlen. cbn [length]. rewrite Z.add_0_r. destruct s; exact E.
  - cbn [write_lines] in E. cbn zeta in E.
    match type of E with bindr (write_lines _ _ _ _ ?sx) _ = _ => set (s1 := sx) in E end.
    destruct (write_lines (map (fun '(n0, o) => LLine n0 o) g ++ q) start (off + 6) (Some n) s1) as [[bs1 s2]| |] eqn:R; try discriminate. cbn [bindr] in E. apply Ok_inj in E. apply pair_equal_spec in E as [<- <-].
    apply IH in R as (dbg & Dg & bs2 & R & ->). unfold s1 in *. cbn [c_dbg c_lastproc] in *.
    exists dbg. split.
    { intros p. rewrite Dg. unfold set. rewrite Nat.eqb_refl. destruct (Nat.eqb_spec p n); [reflexivity|reflexivity]. }
    exists bs2. split. { rewrite zlen_cons. replace (off + 6 * (1 + zlen g)) with (off + 6 + 6 * zlen g) by lia. replace (off + 6 * (zlen g + 1)) with (off + 6 + 6 * zlen g) by lia. exact R. }
    cbn [flat_map]. unfold line_bytes at 1. cbn [fst snd]. unfold set. rewrite Nat.eqb_refl. cbn [start_line]. rewrite <- !app_assoc. reflexivity.
Qed.

Lemma find_notin {A} (p : nat) (f : A -> nat) l : ~ In p (map f l) -> find (fun x => Nat.eqb (f x) p) l = None.
Proof. induction l as [|x l IH]; intros H; [reflexivity|]. cbn [find map] in *. destruct (Nat.eqb_spec (f x) p); [exfalso; apply H; now left|]. apply IH. intros Q. apply H. now right. Qed.
Lemma find_in {A} (p : nat) (f : A -> nat) l x : NoDup (map f l) -> In x l -> f x = p -> find (fun x => Nat.eqb (f x) p) l = Some x.
Proof.
  induction l as [|y l IH]; intros N I' E; [destruct I'|]. cbn [find map] in *. inversion N; subst. destruct I' as [->|I'].
  - now rewrite Nat.eqb_refl.
  - destruct (Nat.eqb_spec (f y) (f x)) as [Q|]; [|now apply IH]. exfalso. match goal with H : ~ In _ _ |- _ => apply H end. rewrite Q. now apply in_map.
Qed.
Lemma find_snoc {A} (f : A -> bool) l x : find f (l ++ [x]) = match find f l with Some y => Some y | None => if f x then Some x else None end.
Proof. induction l as [|y l IH]; cbn [find app]; [destruct (f x); reflexivity|]. destruct (f y); [reflexivity|assumption]. Qed.
Lemma last_opt_snoc l x : last_opt (l ++ [x]) = Some x.
Proof. destruct l as [|y l]; [reflexivity|]. cbn [last_opt app]. f_equal. revert y. induction l as [|z l IH]; intros y; [reflexivity|]. cbn [app]. rewrite last_cons. apply IH. Qed.
Lemma follower_notin p l : ~ In p l -> follower p l = None.
Proof. induction l as [|x l IH]; intros H; [reflexivity|]. cbn [follower]. destruct (Nat.eqb_spec x p); [exfalso; apply H; now left|]. apply IH. intros Q. apply H. now right. Qed.
Lemma last_In l : forall x : nat, In (last l x) (x :: l).
Proof. induction l as [|y l IH]; intros x; [now left|]. rewrite last_cons. right. apply IH. Qed.
Lemma follower_snoc l x p : NoDup (l ++ [x]) -> follower p (l ++ [x]) = if match last_opt l with Some y => Nat.eqb y p | None => false end then Some x else follower p l.
Proof.
  induction l as [|y l IH]; intros N. { cbn. destruct (Nat.eqb x p); reflexivity. }
  cbn [app] in N. inversion N as [|? ? Ny Nl]; subst. cbn [app follower]. destruct l as [|z l].
  - cbn. destruct (Nat.eqb_spec y p); [reflexivity|]. destruct (Nat.eqb x p); reflexivity.
  - destruct (Nat.eqb_spec y p) as [->|Np].
    + assert (Q : match last_opt (p :: z :: l) with Some y0 => Nat.eqb y0 p | None => false end = false).
      { cbn [last_opt]. apply Nat.eqb_neq. intros Q. apply Ny. rewrite <- Q. apply in_or_app. left. rewrite last_cons. apply last_In. }
      rewrite Q. reflexivity.
    + rewrite IH by assumption. cbn [last_opt]. now rewrite last_cons.
Qed.
Lemma slice_mono i n a b r : slice i n a = Some r -> slice i n (a ++ b) = Some r.
Proof.
  unfold slice. destruct (Z.leb_spec 0 i); [|discriminate]. destruct (Z.leb_spec 0 n); [|discriminate]. cbn [andb]. destruct (Z.leb_spec (i + n) (zlen a)); [|discriminate]. intros E. injection E as <-.
  rewrite zlen_app. pose proof (zlen_nonneg b). destruct (Z.leb_spec (i + n) (zlen a + zlen b)); [|lia]. f_equal. unfold zlen in *. rewrite skipn_app, firstn_app, skipn_length.
  replace (Z.to_nat n - (length a - Z.to_nat i))%nat with 0%nat by lia. cbn [firstn]. apply app_nil_r.
Qed.
(** the lines as they are read *)
Fixpoint elines (c : nat -> Z) (start : Z) (q : list lineitem) : list (Z * Z) :=
  match q with
  | [] => []
  | LProc n l :: q => (c n mod 2 ^ 32, 0) :: elines c l q
  | LLine num ofs :: q => (ofs mod 2 ^ 32, if wrap 16 (num - start) =? 0 then 0x7fff else wrap 16 (num - start)) :: elines c start q
  end.
Lemma rd_line_le a b : 0 <= b < 2 ^ 16 -> rd_line (le_bytes 4 a ++ le_bytes 2 b) = (a mod 2 ^ 32, b).
Proof.
  intros B. unfold rd_line. f_equal.
  - change (field 0 4 ([] ++ le_bytes 4 a ++ le_bytes 2 b) = a mod 2 ^ 32). now rewrite field_le.
  - rewrite <- (app_nil_r (le_bytes 2 b)). rewrite field_le by apply le_bytes_length. apply Z.mod_small. change (8 * Z.of_nat 2) with 16. lia.
Qed.
Definition lrecs (c : nat -> Z) (start : Z) (q : list lineitem) (bs : list Z) : Prop :=
  exists recs, bs = concat recs /\ Forall (fun r => zlen r = 6) recs /\ map rd_line recs = elines c start q.
Lemma elines_app_run c start l q : elines c start (map (fun '(n, o) => LLine n o) l ++ q) =
  map (fun x => (snd x mod 2 ^ 32, if wrap 16 (fst x - start) =? 0 then 0x7fff else wrap 16 (fst x - start))) l ++ elines c start q.
Proof. induction l as [|[n o] l IH]; cbn [map app elines fst snd]; [reflexivity|]. now rewrite IH. Qed.
Lemma line_val_range v : 0 <= (if wrap 16 v =? 0 then 0x7fff else wrap 16 v) < 2 ^ 16.
Proof. pose proof (wrap_range 16 v ltac:(lia)). destruct (_ =? 0); [lia|]. assumption. Qed.
Lemma run_recs c start : forall l q bs, lrecs c start q bs -> lrecs c start (map (fun '(n, o) => LLine n o) l ++ q) (flat_map (line_bytes start) l ++ bs).
Proof.
  induction l as [|[n o] l IH]; intros q bs H; [exact H|]. apply IH in H as (recs & E & F & M). cbn [map app flat_map]. exists (line_bytes start (n, o) :: recs). split; [|split].
  - cbn [concat]. rewrite <- E. now rewrite app_assoc.
  - constructor; [|assumption]. unfold line_bytes, zlen. rewrite app_length, !le_bytes_length. reflexivity.
  - cbn [map elines]. rewrite M. f_equal. unfold line_bytes. cbn [fst snd]. apply rd_line_le. apply line_val_range.
Qed.
Definition same_syms (s s' : st) : Prop := c_idx s' = c_idx s /\ c_inc s' = c_inc s /\ c_pub s' = c_pub s /\ c_start_files s' = c_start_files s.
Lemma write_groups m nf : forall gs off lst s G D bs s' st0, dinv m nf G s D -> zlen D = off -> NoDup (pnames G ++ map gname gs) ->
  write_lines (flat_map unf gs) (start_data m) off lst s = Ok (bs, s') ->
  same_syms s s' /\ lrecs (c_idx s) st0 (flat_map unf gs) bs /\ exists G', map fst G' = gs /\ dinv m nf (G ++ G') s' (D ++ bs).
Proof.
  induction gs as [|g gs IH]; intros off lst s G D bs s' st0 DI ZD N E; cbn [flat_map] in *.
  - cbn [write_lines] in E. injection E as <- <-. split; [repeat split|]. split; [exists []; repeat split; constructor|]. exists []. rewrite !app_nil_r. split; [reflexivity|assumption].
  - destruct g as [[n l] g]. unfold unf at 1 in E. unfold unf at 1. cbn [gname fst snd app map] in *. cbn [write_lines] in E. cbn zeta in E.
    match type of E with bindr (write_lines _ _ _ _ ?sx) _ = _ => set (s1 := sx) in E end.
    destruct (write_lines (map (fun '(n0, o) => LLine n0 o) g ++ flat_map unf gs) (start_data m) (off + 6) (Some n) s1) as [[bs1 s2]| |] eqn:R; try discriminate. cbn [bindr] in E. apply Ok_inj in E. apply pair_equal_spec in E as [<- <-].
    apply write_run in R as (dbg & Dg & bs2 & R & ->).
    assert (Nn : ~ In n (pnames G)). { intros Q. apply NoDup_remove_2 in N. apply N. apply in_or_app. now left. }
    assert (D0 : c_dbg s n = {| start_line := 0; end_line := 0; ln_fileofs := 0; ln_count := 0; next_proc := 0; next_file := nf n |}).
    { rewrite (d_dbg _ _ _ _ _ DI). unfold dspec. rewrite (find_notin n (fun g => gname (fst g)) G Nn). reflexivity. }
    set (pos := wrap 32 (start_data m + off)).
    assert (LN : c_lastproc s <> Some n).
    { rewrite (d_last _ _ _ _ _ DI). intros Q. apply Nn. destruct (pnames G) as [|x r]; [discriminate|]. cbn [last_opt] in Q. injection Q as <-. apply last_In. }
    assert (S1n : c_dbg s1 n = {| start_line := l; end_line := 0; ln_fileofs := pos; ln_count := 1; next_proc := 0; next_file := nf n |}).
    { unfold s1. cbn [c_dbg]. unfold set at 1. rewrite Nat.eqb_refl. destruct (c_lastproc s) as [p|]; [unfold set; destruct (Nat.eqb_spec n p) as [Q|_]; [subst; congruence|]|]; rewrite D0; reflexivity. }
    assert (S1o : forall p, p <> n -> c_dbg s1 p = match c_lastproc s with
        | Some x => if Nat.eqb p x then let d := c_dbg s p in {| start_line := start_line d; end_line := end_line d; ln_fileofs := ln_fileofs d; ln_count := ln_count d; next_proc := wrap 32 (c_idx s n); next_file := next_file d |} else c_dbg s p
        | None => c_dbg s p end).
    { intros p Hp. unfold s1. cbn [c_dbg]. unfold set at 1. destruct (Nat.eqb_spec p n); [contradiction|]. destruct (c_lastproc s) as [x|]; [|reflexivity]. unfold set. destruct (Nat.eqb_spec p x); [subst; reflexivity|reflexivity]. }
    rewrite S1n in Dg. cbn [start_line] in R. rewrite S1n. cbn [start_line].
    set (g1 := ((n, l, g), pos) : pgroup).
    set (bs0 := le_bytes 4 (c_idx s n) ++ le_bytes 2 0 ++ flat_map (line_bytes l) g).
    assert (Zb : zlen bs0 = 6 + 6 * zlen g).
    { unfold bs0. rewrite !zlen_app. unfold zlen at 1 2. rewrite !le_bytes_length. replace (zlen (flat_map (line_bytes l) g)) with (6 * zlen g); [lia|]. clear. induction g as [|x g IH]; [reflexivity|].
      cbn [flat_map]. rewrite zlen_app, zlen_cons, <- IH. unfold line_bytes, zlen at 2. rewrite app_length, !le_bytes_length. lia. }
    assert (DI1 : dinv m nf (G ++ [g1]) (with_dbg s1 dbg (c_lastproc s1)) (D ++ bs0)).
    { assert (PN : pnames (G ++ [g1]) = pnames G ++ [n]) by (unfold pnames; rewrite map_app; reflexivity).
      assert (N1 : NoDup (pnames G ++ [n])). { apply NoDup_app_snoc; [exact (d_nodup _ _ _ _ _ DI)|assumption]. }
      constructor; cbn [with_dbg c_dbg c_idx c_lastproc].
      - intros p. rewrite Dg. unfold dspec. rewrite find_snoc, PN, follower_snoc by exact N1. cbn [fst g1 gname]. change (c_idx s1) with (c_idx s).
        destruct (Nat.eqb_spec p n) as [->|Np].
        + rewrite (find_notin n (fun g => gname (fst g)) G Nn). rewrite Nat.eqb_refl. unfold g1. rewrite run_dbg_spec by reflexivity. cbn [start_line end_line ln_fileofs ln_count next_proc next_file].
          f_equal. rewrite <- (d_last _ _ _ _ _ DI). destruct (c_lastproc s) as [x|]; [destruct (Nat.eqb_spec x n); [subst; congruence|]|]; now rewrite follower_notin.
        + rewrite S1o by assumption. rewrite <- (d_last _ _ _ _ _ DI). pose proof (d_dbg _ _ _ _ _ DI p) as Dp. unfold dspec in Dp.
          destruct (Nat.eqb_spec n p); [congruence|].
          destruct (find (fun g0 => Nat.eqb (gname (fst g0)) p) G) as [[[[a b] c] e]|] eqn:Fi.
          * destruct (c_lastproc s) as [x|] eqn:LP; [|assumption]. destruct (Nat.eqb_spec p x) as [->|Npx].
            -- rewrite Nat.eqb_refl. cbn zeta. rewrite Dp. reflexivity.
            -- destruct (Nat.eqb_spec x p); [congruence|]. assumption.
          * destruct (c_lastproc s) as [x|] eqn:LP; [|assumption]. destruct (Nat.eqb_spec p x) as [->|Npx]; [|assumption]. exfalso.
            assert (Ix : In x (pnames G)). { pose proof (d_last _ _ _ _ _ DI) as Q. rewrite LP in Q. destruct (pnames G) as [|y r]; [discriminate|]. cbn [last_opt] in Q. injection Q as ->. apply last_In. }
            unfold pnames in Ix. apply in_map_iff in Ix as (y & Y1 & Y2). pose proof (find_none _ _ Fi y Y2) as Q. cbn in Q. rewrite Y1, Nat.eqb_refl in Q. discriminate.
      - unfold s1. cbn [c_lastproc]. now rewrite PN, last_opt_snoc.
      - now rewrite PN.
      - apply Forall_app. split.
        + eapply Forall_impl; [|exact (d_pos _ _ _ _ _ DI)]. intros y (o & O1 & O2). exists o. split; [assumption|]. now apply slice_mono.
        + constructor; [|constructor]. exists off. split; [reflexivity|]. unfold bs0. cbn [fst g1 gname]. change (c_idx s1) with (c_idx s). rewrite (app_assoc (le_bytes 4 _)). apply slice_app; [now rewrite ZD|].
          unfold zlen. rewrite app_length, !le_bytes_length. reflexivity. }
    eapply IH with (st0 := l) in R; [|exact DI1|rewrite zlen_app, Zb; lia|].
    2: { unfold pnames. rewrite map_app. cbn [map fst g1 gname]. rewrite <- app_assoc. exact N. }
    destruct R as ((Q1 & Q2 & Q3 & Q4) & LR & G' & E1 & DI2). split; [|split].
    + split; [exact Q1|]. split; [exact Q2|]. split; [exact Q3|exact Q4].
    + change (c_idx (with_dbg s1 dbg (c_lastproc s1))) with (c_idx s) in LR. rewrite Q1. change (c_idx (with_dbg s1 dbg (c_lastproc s1))) with (c_idx s).
      apply (run_recs _ _ g) in LR. destruct LR as (recs & B & F & M). exists ((le_bytes 4 (c_idx s n) ++ le_bytes 2 0) :: recs). split; [|split].
      * cbn [concat]. rewrite <- B. now rewrite <- !app_assoc.
      * constructor; [|assumption]. unfold zlen. rewrite app_length, !le_bytes_length. reflexivity.
      * cbn [map elines]. rewrite M. f_equal. apply rd_line_le. lia.
    + exists (g1 :: G'). split; [cbn [map]; now rewrite E1|]. rewrite <- app_assoc in DI2. cbn [app] in DI2.
      rewrite Q1. change (c_idx (with_dbg s1 dbg (c_lastproc s1))) with (c_idx s).
      replace (D ++ le_bytes 4 (c_idx s n) ++ le_bytes 2 0 ++ flat_map (line_bytes l) g ++ bs2) with ((D ++ bs0) ++ bs2); [exact DI2|]. unfold bs0. now rewrite <- !app_assoc.
Qed.
