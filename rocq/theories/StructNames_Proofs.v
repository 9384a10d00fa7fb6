From Verif Require Import Base Struct_Model Struct_Spec StructRun_Spec Struct_Proofs.

(** ** name comparison *)
Lemma same_iff cs : forall a b, same cs a b = true <-> same_name cs a b.
Proof.
  unfold same_name. induction a as [|x a IH]; intros [|y b]; cbn [same map].
  - destruct cs; split; reflexivity.
  - destruct cs; split; discriminate.
  - destruct cs; split; discriminate.
  - rewrite Bool.andb_true_iff, IH. destruct cs.
    + split; [intros [E ->]; f_equal; lia|intros E; inversion E; split; [lia|reflexivity]].
    + change toupper with upper. split; [intros [E ->]; f_equal; lia|intros E; inversion E; split; [lia|reflexivity]].
Qed.
Lemma name_match_iff cs a b : name_match cs a b = true <-> same_name cs a b.
Proof.
  unfold name_match. rewrite Bool.andb_true_iff, same_iff. split; [intros [_ H]; exact H|]. intros H. split; [|exact H].
  unfold same_name in H. unfold zlen. destruct cs; [subst; lia|]. apply (f_equal (@length Z)) in H. rewrite !map_length in H. lia.
Qed.
Lemma same_name_refl cs a : same_name cs a a.
Proof. unfold same_name. destruct cs; reflexivity. Qed.
Lemma same_name_sym cs a b : same_name cs a b -> same_name cs b a.
Proof. unfold same_name. destruct cs; congruence. Qed.
Lemma same_name_trans cs a b c : same_name cs a b -> same_name cs b c -> same_name cs a c.
Proof. unfold same_name. destruct cs; congruence. Qed.

(** ** induction over fields *)
Section sf_induction.
  Variable P : sfield -> Prop.
  Hypothesis HN : forall n o t, P (SF n o t None).
  Hypothesis HS : forall n o t fl, Forall P fl -> P (SF n o t (Some fl)).
  Fixpoint sf_ind' (f : sfield) : P f :=
    match f with
    | SF n o t None => HN n o t
    | SF n o t (Some fl) => HS n o t fl ((fix go l : Forall P l := match l with [] => Forall_nil P | x :: l => Forall_cons x (sf_ind' x) (go l) end) fl)
    end.
End sf_induction.

Definition shift (b : Z) (e : entry) : entry := (fst (fst e), snd (fst e) + b, snd e).
Lemma members_shift : forall f b, members_of b f = map (shift b) (members_of 0 f).
Proof.
  apply (sf_ind' (fun f => forall b, members_of b f = map (shift b) (members_of 0 f))).
  - intros [|c n] o t b; cbn [members_of map]; [reflexivity|]. unfold shift. cbn [fst snd]. replace (0 + o + b) with (b + o) by lia. reflexivity.
  - intros [|c n] o t fl FA b; cbn [members_of map]; [|unfold shift; cbn [fst snd]; replace (0 + o + b) with (b + o) by lia; reflexivity].
    induction FA as [|f fl H FA IH]; cbn [flat_map map]; [reflexivity|]. rewrite map_app, <- IH. f_equal.
    rewrite (H (b + o)), (H (0 + o)), map_map. apply map_ext. intros [[nm q] g]. unfold shift. cbn [fst snd]. f_equal. f_equal. lia.
Qed.
Lemma members_list_shift fl b : flat_map (members_of b) fl = map (shift b) (flat_map (members_of 0) fl).
Proof. induction fl as [|f fl IH]; cbn [flat_map map]; [reflexivity|]. rewrite map_app, <- IH, <- members_shift. reflexivity. Qed.
Lemma names_shift b l : names (map (shift b) l) = names l.
Proof. unfold names. rewrite map_map. apply map_ext. intros [[n o] f]. reflexivity. Qed.
Lemma names_app l r : names (l ++ r) = names l ++ names r.
Proof. apply map_app. Qed.
Lemma members_app a b : members (a ++ b) = members a ++ members b.
Proof. unfold members. apply flat_map_app. Qed.
Lemma members_names b f : names (members_of b f) = names (members_of 0 f).
Proof. rewrite members_shift. apply names_shift. Qed.

(** ** the search *)
Definition matching (cs : bool) (name : list Z) (e : entry) : bool := name_match cs name (fst (fst e)).
Definition result (e : entry) : sfield * Z := (snd e, wrap 32 (snd (fst e) - f_off (snd e))).
Lemma find_app {A} (p : A -> bool) l r : find p (l ++ r) = match find p l with Some x => Some x | None => find p r end.
Proof. induction l as [|x l IH]; cbn [find app]; [reflexivity|]. destruct (p x); [reflexivity|exact IH]. Qed.
Lemma find_map {A} (g : A -> A) p l : (forall x, p (g x) = p x) -> find p (map g l) = option_map g (find p l).
Proof. intros H. induction l as [|x l IH]; cbn [find map]; [reflexivity|]. rewrite H. destruct (p x); [reflexivity|exact IH]. Qed.
Lemma max_of_nonneg {A} (w : A -> Z) l : 0 <= max_of w l.
Proof. induction l as [|x l IH]; cbn [max_of]; lia. Qed.

Lemma first_of_find cs name level fl :
  Forall (fun f => level + depth f <= 32 -> search_field cs name level f = (false, option_map result (find (matching cs name) (members_of 0 f)))) fl ->
  level + max_of depth fl <= 32 -> first_of (search_field cs name level) fl = (false, option_map result (find (matching cs name) (flat_map (members_of 0) fl))).
Proof.
  intros FA D. induction FA as [|f fl H FA IH]; cbn [first_of flat_map max_of] in *; [reflexivity|]. rewrite find_app, H by lia.
  destruct (find (matching cs name) (members_of 0 f)) as [e|]; cbn [option_map]; [reflexivity|].
  change ((let '(e', r) := first_of (search_field cs name level) fl in (false || e', r)) = (false, option_map result (find (matching cs name) (flat_map (members_of 0) fl)))).
  rewrite IH by lia. reflexivity.
Qed.
Lemma search_field_find cs name : forall f level, level + depth f <= 32 ->
  search_field cs name level f = (false, option_map result (find (matching cs name) (members_of 0 f))).
Proof.
  apply (sf_ind' (fun f => forall level, level + depth f <= 32 -> search_field cs name level f = (false, option_map result (find (matching cs name) (members_of 0 f))))).
  - intros [|c n] o t level D; cbn [search_field members_of find]; [reflexivity|]. unfold matching. cbn [fst snd]. destruct (name_match cs name (c :: n)); [|reflexivity].
    cbn [option_map]. unfold result. cbn [fst snd f_off]. replace (0 + o - o) with 0 by lia. reflexivity.
  - intros [|c n] o t fl FA level D.
    + cbn [search_field members_of depth] in *. rewrite Z.geb_leb. unfold MAX_STRUCT_NESTING. pose proof (max_of_nonneg depth fl). replace (32 <=? level) with false by lia.
      rewrite (first_of_find cs name (level + 1) fl); [|apply Forall_impl with (2 := FA); intros f HH; apply HH|lia].
      rewrite (members_list_shift fl (0 + o)), find_map by (intros [[? ?] ?]; reflexivity). destruct (find (matching cs name) (flat_map (members_of 0) fl)) as [[[nm q] g]|]; cbn [option_map add_off]; [|reflexivity].
      unfold result, shift. cbn [fst snd]. f_equal. f_equal. f_equal. unfold wrap. rewrite Zplus_mod_idemp_l. f_equal. lia.
    + cbn [search_field members_of find]. unfold matching. cbn [fst snd]. destruct (name_match cs name (c :: n)); [|reflexivity].
      cbn [option_map]. unfold result. cbn [fst snd f_off]. replace (0 + o - o) with 0 by lia. reflexivity.
Qed.
Lemma Search_find cs name fl : depths fl <= 31 -> SearchNameInStruct cs name 0 fl = (false, option_map result (find (matching cs name) (members fl))).
Proof.
  intros D. unfold SearchNameInStruct. change (0 >=? MAX_STRUCT_NESTING) with false. cbv iota. change (0 + 1) with 1. apply first_of_find; [|unfold depths in D; lia].
  apply Forall_forall. intros f _ H. apply search_field_find. exact H.
Qed.
(** if it finds nothing and reports no error there is nothing, at any depth *)
Lemma first_of_none {A B} (p : A -> bool * option B) l : first_of p l = (false, None) <-> Forall (fun x => p x = (false, None)) l.
Proof.
  induction l as [|x l IH]; cbn [first_of]; [split; [constructor|reflexivity]|]. split.
  - intros H. destruct (p x) as [e [r|]] eqn:E; [discriminate|].
    change ((let '(e', r) := first_of p l in (e || e', r)) = (false, None)) in H. destruct (first_of p l) as [e' r'] eqn:E2. inversion H as [[H1 H2]].
    apply Bool.orb_false_iff in H1 as [-> ->]. subst r'. constructor; [exact E|]. apply IH. reflexivity.
  - intros F. apply Forall_cons_iff in F as [F1 F2]. rewrite F1. apply IH in F2.
    change ((let '(e', r) := first_of p l in (false || e', r)) = (false, None)). rewrite F2. reflexivity.
Qed.
Lemma search_none cs name : forall f level, search_field cs name level f = (false, None) -> forall e, In e (members_of 0 f) -> ~ same_name cs name (fst (fst e)).
Proof.
  apply (sf_ind' (fun f => forall level, search_field cs name level f = (false, None) -> forall e, In e (members_of 0 f) -> ~ same_name cs name (fst (fst e)))).
  - intros [|c n] o t level H e IN; cbn [search_field members_of] in *; [contradiction|]. destruct IN as [<-|[]]. cbn [fst]. intros S1. apply name_match_iff in S1. rewrite S1 in H. discriminate.
  - intros [|c n] o t fl FA level H e IN; cbn [search_field members_of] in *.
    + destruct (level >=? MAX_STRUCT_NESTING); [discriminate|]. assert (H' : first_of (search_field cs name (level + 1)) fl = (false, None)).
      { destruct (first_of (search_field cs name (level + 1)) fl) as [b [[g q]|]]; [discriminate|]. exact H. }
      apply first_of_none in H'. apply in_flat_map in IN as (f & INf & IN). rewrite Forall_forall in FA, H'. rewrite members_shift in IN. apply in_map_iff in IN as (e' & <- & IN).
      unfold shift. cbn [fst]. exact (FA f INf (level + 1) (H' f INf) e' IN).
    + destruct IN as [<-|[]]. cbn [fst]. intros S1. apply name_match_iff in S1. rewrite S1 in H. discriminate.
Qed.
Lemma not_found cs name fl : found (SearchNameInStruct cs name 0 fl) = false -> forall b, In b (names (members fl)) -> ~ same_name cs name b.
Proof.
  unfold SearchNameInStruct, found. change (0 >=? MAX_STRUCT_NESTING) with false. cbv iota. change (0 + 1) with 1.
  destruct (first_of (search_field cs name 1) fl) as [e o] eqn:E. intros H b IN. apply Bool.orb_false_iff in H as [-> H]. destruct o; [discriminate|].
  apply first_of_none in E. unfold names in IN. apply in_map_iff in IN as (x & <- & IN). apply in_flat_map in IN as (f & INf & IN). rewrite Forall_forall in E. exact (search_none cs name f 1 (E f INf) x IN).
Qed.
Lemma fresh_not_found cs name fl : depths fl <= 31 -> (forall b, In b (names (members fl)) -> ~ same_name cs name b) -> found (SearchNameInStruct cs name 0 fl) = false.
Proof.
  intros D H. rewrite Search_find by exact D. destruct (find (matching cs name) (members fl)) as [e|] eqn:E; [|reflexivity]. apply find_some in E as [IN M].
  exfalso. apply (H (fst (fst e))); [unfold names; apply in_map_iff; exists e; auto|]. apply name_match_iff. exact M.
Qed.
Lemma check_anon_iff cs outer : depths outer <= 31 \/ True -> forall f, CheckAnonymousStruct cs outer f = false <-> (forall n, In n (names (members_of 0 f)) -> found (SearchNameInStruct cs n 0 outer) = false).
Proof.
  intros _. apply (sf_ind' (fun f => CheckAnonymousStruct cs outer f = false <-> (forall n, In n (names (members_of 0 f)) -> found (SearchNameInStruct cs n 0 outer) = false))).
  - intros [|c n] o t; cbn [CheckAnonymousStruct members_of names map fst In]; [split; [intros _ ? []|reflexivity]|]. split; [intros H ? [<-|[]]; exact H|intros H; apply H; left; reflexivity].
  - intros [|c n] o t fl FA; cbn [CheckAnonymousStruct members_of].
    + rewrite members_list_shift, names_shift. induction FA as [|f fl H FA IH]; cbn [existsb flat_map names map In]; [split; [intros _ ? []|reflexivity]|].
      rewrite Bool.orb_false_iff, H, IH. fold (names (members_of 0 f ++ flat_map (members_of 0) fl)). rewrite names_app. split.
      * intros [H1 H2] x IN. apply in_app_or in IN as [IN|IN]; auto.
      * intros H1. split; intros x IN; apply H1; apply in_or_app; auto.
    + cbn [names map fst In]. split; [intros H ? [<-|[]]; exact H|intros H; apply H; left; reflexivity].
Qed.
Lemma check_list_iff cs outer fl : existsb (CheckAnonymousStruct cs outer) fl = false <-> (forall n, In n (names (members fl)) -> found (SearchNameInStruct cs n 0 outer) = false).
Proof.
  unfold members. induction fl as [|f fl IH]; cbn [existsb flat_map]; [split; [intros _ ? []|reflexivity]|].
  rewrite Bool.orb_false_iff, check_anon_iff, IH by (right; exact I). rewrite names_app. split.
  - intros [H1 H2] x IN. apply in_app_or in IN as [IN|IN]; auto.
  - intros H1. split; intros x IN; apply H1; apply in_or_app; auto.
Qed.

(** ** distinct names *)
Lemma distinct_app cs a b : distinct cs (a ++ b) <-> distinct cs a /\ distinct cs b /\ forall x y, In x a -> In y b -> ~ same_name cs x y.
Proof.
  induction a as [|x a IH]; cbn [app distinct].
  - split; [intros H; split; [exact I|]; split; [exact H|intros ? ? []]|intros (_ & H & _); exact H].
  - rewrite IH. split.
    + intros (H & D1 & D2 & D3). split; [split; [intros y IN; apply H; apply in_or_app; auto|exact D1]|]. split; [exact D2|].
      intros y z [<-|IN] IN2; [apply H; apply in_or_app; auto|apply D3; auto].
    + intros ((H & D1) & D2 & D3). split.
      * intros y IN. apply in_app_or in IN as [IN|IN]; [apply H; exact IN|apply D3; [left; reflexivity|exact IN]].
      * split; [exact D1|]. split; [exact D2|]. intros y z IN1 IN2. apply D3; [right; exact IN1|exact IN2].
Qed.
Lemma distinct_one cs n : distinct cs [n].
Proof. cbn [distinct]. split; [intros ? []|exact I]. Qed.
(** the names a field adds *)
Definition field_names (name : list Z) (vt : option (list sfield * Z)) : list (list Z) := match name with [] => vt_names vt | _ => [name] end.
Lemma field_members name off ts vt : names (members_of 0 (SF name off ts (vt_fields vt))) = field_names name vt.
Proof.
  unfold field_names, vt_names. destruct name as [|c n]; [|destruct vt as [[fl m]|]; reflexivity]. destruct vt as [[fl m]|]; cbn [members_of vt_fields]; [|reflexivity]. rewrite members_list_shift. apply names_shift.
Qed.
Definition taken (cs : bool) (c : cur) (l : list (list Z)) : Prop := exists n, In n l /\ found (SearchNameInStruct cs n 0 (head c)) = true.
Lemma create_names cs c name vt size tsize c' : CreateStructField cs c name vt size tsize = Ok c' ->
  (forall n, In n (field_names name vt) -> found (SearchNameInStruct cs n 0 (head c)) = false) /\ exists off, head c' = head c ++ [SF name off tsize (vt_fields vt)].
Proof.
  unfold CreateStructField. set (err := match name with [] => _ | _ :: _ => _ end). destruct err eqn:E; [discriminate|]. subst err. intros H. split.
  - destruct name as [|ch n]; cbn [field_names].
    + destruct vt as [[fl m]|]; cbn [vt_names]; [|intros ? []]. apply check_list_iff. exact E.
    + intros n0 [<-|[]]. exact E.
  - cbv zeta in H. destruct (field_offset c _) as [off| |]; cbn [bindr] in H; [|discriminate|discriminate]. exists off. injection H as H. rewrite <- H. cbn [head add_field].
    assert (HC : forall b : bool, head (if b then raise_total (set_offset c off) off else c) = head c) by (intros [|]; [unfold raise_total; destruct (u32 off >? _); reflexivity|reflexivity]).
    assert (HM : forall (b : bool) x m, head (if b then set_max x m else x) = head x) by (intros [|] x m; reflexivity).
    rewrite HM, HC. reflexivity.
Qed.
Lemma create_err cs c name vt size tsize : CreateStructField cs c name vt size tsize = Err ->
  (exists n, In n (field_names name vt) /\ found (SearchNameInStruct cs n 0 (head c)) = true).
Proof.
  unfold CreateStructField. set (err := match name with [] => _ | _ :: _ => _ end). destruct err eqn:E; subst err.
  - intros _. destruct name as [|ch n]; cbn [field_names].
    + destruct vt as [[fl m]|]; [|discriminate]. cbn [vt_names].
      destruct (existsb (fun n => found (SearchNameInStruct cs n 0 (head c))) (names (members fl))) eqn:X; [apply existsb_exists in X as (n & IN & X); eauto|].
      exfalso. enough (existsb (CheckAnonymousStruct cs (head c)) fl = false) by congruence. apply check_list_iff. intros n IN. destruct (found _) eqn:Y; [|reflexivity].
      assert (existsb (fun n => found (SearchNameInStruct cs n 0 (head c))) (names (members fl)) = true) by (apply existsb_exists; eauto). congruence.
    + exists (ch :: n). split; [left; reflexivity|exact E].
  - cbv zeta. destruct (field_offset c _) as [off| |] eqn:FO; cbn [bindr]; try discriminate. unfold field_offset, align_int in FO. repeat match type of FO with context [if ?b then _ else _] => destruct b end; discriminate.
Qed.
Lemma UpdateStructSize_head c t : head (UpdateStructSize c t) = head c.
Proof. unfold UpdateStructSize. destruct (is_union c); [destruct (_ >? _); reflexivity|]. cbv zeta. destruct (_ >? _); reflexivity. Qed.
Lemma finish_head c : head (finish c) = head c.
Proof. unfold finish. cbv zeta. set (c1 := if OrgInside c then _ else c). assert (head c1 = head c) by (unfold c1; destruct (OrgInside c); reflexivity). clearbody c1. destruct (_ >? _); prj; assumption. Qed.
Lemma names_snoc c f : names (members (c ++ [f])) = names (members c) ++ names (members_of 0 f).
Proof. rewrite members_app, names_app. f_equal. unfold members. cbn [flat_map]. rewrite app_nil_r. reflexivity. Qed.


(** what a line adds *)
Definition adds (cs : bool) (c c' : cur) (l : list (list Z)) (dp : Z) : Prop :=
  names (members (head c')) = names (members (head c)) ++ l /\ depths (head c') = Z.max (depths (head c)) dp /\
  forall n, In n l -> forall b, In b (names (members (head c))) -> ~ same_name cs n b.
Lemma max_of_app {A} (w : A -> Z) a b : max_of w (a ++ b) = Z.max (max_of w a) (max_of w b).
Proof. pose proof (max_of_nonneg w b). induction a as [|x a IH]; cbn [max_of app]; lia. Qed.
Lemma depths_snoc fl f : depths (fl ++ [f]) = Z.max (depths fl) (depth f).
Proof. unfold depths. rewrite max_of_app. cbn [max_of]. assert (0 <= depth f) by (destruct f as [[|] ? ? [|]]; cbn [depth]; try lia; pose proof (max_of_nonneg depth l); lia). lia. Qed.
Definition field_depth (name : list Z) (vt : option (list sfield * Z)) : Z := match name with [] => vt_depth vt | _ => 0 end.
Lemma field_depth_eq name off ts vt : depth (SF name off ts (vt_fields vt)) = field_depth name vt.
Proof. destruct name as [|c n]; destruct vt as [[fl m]|]; reflexivity. Qed.
Lemma create_adds cs c name vt size tsize c' : CreateStructField cs c name vt size tsize = Ok c' -> adds cs c (UpdateStructSize c' tsize) (field_names name vt) (field_depth name vt).
Proof.
  intros H. apply create_names in H as [N (off & HD)]. unfold adds. rewrite UpdateStructSize_head, HD, names_snoc, field_members, depths_snoc, field_depth_eq. split; [reflexivity|]. split; [reflexivity|].
  intros n IN. apply not_found. apply N. exact IN.
Qed.
Lemma adds_nil cs c c' : head c' = head c -> adds cs c c' [] 0.
Proof. intros H. unfold adds. rewrite H, app_nil_r. split; [reflexivity|]. split; [|intros ? []]. pose proof (max_of_nonneg depth (head c)). unfold depths. lia. Qed.
Lemma run_all_adds cs body : Forall (fun d => forall c c', run cs d c = Ok c' -> adds cs c c' (dnames d) (ddepth d) /\ (types_distinct cs d -> distinct cs (dnames d))) body ->
  forall c c', run_all (run cs) body c = Ok c' -> adds cs c c' (flat_map dnames body) (max_of ddepth body) /\ (all_of (types_distinct cs) body -> distinct cs (flat_map dnames body)).
Proof.
  intros FA. induction FA as [|d body H FA IH]; intros c c' R; cbn [run_all flat_map max_of all_of] in *.
  - injection R as <-. split; [apply adds_nil; reflexivity|]. intros _. exact I.
  - destruct (run cs d c) as [c1| |] eqn:R1; cbn [bindr] in R; [|discriminate|discriminate].
    destruct (H c c1 R1) as [(N1 & D1 & F1) T1].
    change (run_all (run cs) body c1 = Ok c') in R. destruct (IH c1 c' R) as [(N2 & D2 & F2) T2]. split.
    + unfold adds. rewrite N2, N1, app_assoc, D2, D1. split; [reflexivity|]. split; [lia|]. intros n IN b INb. apply in_app_or in IN as [IN|IN]; [apply F1; assumption|]. apply F2; [exact IN|]. rewrite N1. apply in_or_app. auto.
    + intros [A1 A2]. apply distinct_app. split; [apply T1; exact A1|]. split; [apply T2; exact A2|]. intros x y INx INy S1. apply (F2 y INy x); [rewrite N1; apply in_or_app; auto|]. apply same_name_sym. exact S1.
Qed.
Lemma field_names_distinct cs n vt : (match vt with Some (fl, _) => distinct cs (names (members fl)) | None => True end) -> distinct cs (field_names n vt).
Proof. destruct n as [|ch n]; cbn [field_names]; [|intros _; apply distinct_one]. destruct vt as [[fl m]|]; cbn [vt_names]; [auto|intros _; exact I]. Qed.
Lemma run_adds cs : forall d c c', run cs d c = Ok c' -> adds cs c c' (dnames d) (ddepth d) /\ (types_distinct cs d -> distinct cs (dnames d)).
Proof.
  apply (def_ind' (fun d => forall c c', run cs d c = Ok c' -> adds cs c c' (dnames d) (ddepth d) /\ (types_distinct cs d -> distinct cs (dnames d)))).
  - intros n sz ts vt c c' R. cbn [run] in R. destruct (CreateStructField cs c n vt sz ts) as [c1| |] eqn:E; cbn [bindr] in R; [|discriminate|discriminate]. injection R as <-.
    apply create_adds in E. replace (dnames (DField n sz ts vt)) with (field_names n vt) by (destruct n; reflexivity). replace (ddepth (DField n sz ts vt)) with (field_depth n vt) by (destruct n; reflexivity).
    split; [exact E|]. cbn [types_distinct]. intros T. apply field_names_distinct. destruct vt as [[fl m]|]; [exact T|exact I].
  - intros v c c' R. cbn [run] in R. split; [|intros _; exact I]. apply adds_nil. unfold AlignInStruct in R. destruct (is_union c); [injection R as <-; reflexivity|].
    destruct (align_int (offset c) v) as [o| |]; cbn [bindr] in R; try discriminate. injection R as <-. unfold raise_total. destruct (_ >? _); reflexivity.
  - intros o c c' R. cbn [run] in R. split; [|intros _; exact I]. apply adds_nil. unfold SetStructCurrentOffset in R. destruct (is_union c); [discriminate|]. injection R as <-. destruct (_ >? _); reflexivity.
  - intros u n body IH c c' R. cbn [run] in R. destruct (match n with [] => false | _ => _ end); [discriminate|].
    destruct (run_all (run cs) body (open_struct u (alignment c))) as [inner| |] eqn:RB; cbn [bindr] in R; [|discriminate|discriminate].
    destruct (run_all_adds cs body IH _ _ RB) as [(N & D & _) T]. cbn [head open_struct members flat_map names map app] in N, D.
    rewrite finish_head in R. set (dir := finish inner) in *. clearbody dir.
    destruct (CreateStructField cs c n (Some (head inner, max_mbr_size dir)) (total_size dir) (total_size dir)) as [c1| |] eqn:E; [|destruct n; discriminate|discriminate]. cbn [bindr] in R.
    set (c2 := if max_mbr_size dir >? max_mbr_size c1 then set_max c1 (max_mbr_size dir) else c1) in *. injection R as <-.
    assert (HD : head c2 = head c1) by (unfold c2; destruct (_ >? _); reflexivity). clearbody c2.
    apply create_adds in E. unfold adds in E |- *. rewrite UpdateStructSize_head in E |- *. rewrite HD.
    replace (dnames (DStruct u n body)) with (field_names n (Some (head inner, max_mbr_size dir))) by (destruct n; [cbn [field_names vt_names dnames]; exact N|reflexivity]).
    replace (ddepth (DStruct u n body)) with (field_depth n (Some (head inner, max_mbr_size dir))).
    2:{ destruct n; [|reflexivity]. cbn [field_depth vt_depth ddepth]. rewrite D. change (depths []) with 0. pose proof (max_of_nonneg ddepth body). lia. }
    split; [exact E|]. cbn [types_distinct]. intros TD. apply field_names_distinct. rewrite N. apply T. exact TD.
Qed.

(** ** no needless errors *)
Definition fresh (cs : bool) (c : cur) (l : list (list Z)) : Prop := forall n b, In n l -> In b (names (members (head c))) -> ~ same_name cs n b.
Lemma create_no_err cs c name vt size tsize : depths (head c) <= 31 -> fresh cs c (field_names name vt) -> CreateStructField cs c name vt size tsize <> Err.
Proof.
  intros D F H. apply create_err in H as (n & IN & FD). rewrite (fresh_not_found cs n (head c) D) in FD; [discriminate|]. intros b INb. apply F; assumption.
Qed.
Lemma run_all_no_err cs body : Forall (fun d => forall c, no_org (is_union c) d -> inner_distinct cs d -> shallow d -> depths (head c) <= 31 -> fresh cs c (dnames d) -> run cs d c <> Err) body ->
  forall c, all_of (no_org (is_union c)) body -> all_of (inner_distinct cs) body -> all_of shallow body -> Z.max (depths (head c)) (max_of ddepth body) <= 31 -> fresh cs c (flat_map dnames body) -> distinct cs (flat_map dnames body) ->
  (forall d c c', In d body -> run cs d c = Ok c' -> is_union c' = is_union c) -> run_all (run cs) body c <> Err.
Proof.
  intros FA. induction FA as [|d body H FA IH]; intros c NO ID SH DP FR DI UN; cbn [run_all]; [discriminate|]. cbn [all_of flat_map max_of] in *.
  destruct NO as [NO1 NO2], ID as [ID1 ID2], SH as [SH1 SH2]. apply distinct_app in DI as (DI1 & DI2 & DI3).
  destruct (run cs d c) as [c1| |] eqn:R; cbn [bindr]; [|exfalso; revert R; apply H; [exact NO1|exact ID1|exact SH1|lia|]; intros n b IN; apply FR; apply in_or_app; auto|discriminate].
  destruct (run_adds cs d c c1 R) as [(N1 & D1 & _) _]. pose proof (UN d c c1 (or_introl eq_refl) R) as U1.
  change (run_all (run cs) body c1 <> Err). apply IH; [rewrite U1; exact NO2|exact ID2|exact SH2|rewrite D1; lia| |exact DI2|intros d' x x' IN; apply UN; right; exact IN].
  intros n b INn INb S1. rewrite N1 in INb. apply in_app_or in INb as [INb|INb].
  - apply (FR n b); [apply in_or_app; auto|exact INb|exact S1].
  - apply (DI3 b n INb INn). apply same_name_sym. exact S1.
Qed.
Lemma create_union cs c n vt sz ts c' : CreateStructField cs c n vt sz ts = Ok c' -> is_union c' = is_union c.
Proof.
  unfold CreateStructField. destruct (match n with [] => _ | _ => _ end); [discriminate|]. cbv zeta. destruct (field_offset c _) as [off| |]; cbn [bindr]; [|discriminate|discriminate]. intros H. injection H as <-.
  cbn [is_union add_field].
  assert (HC : forall b : bool, is_union (if b then raise_total (set_offset c off) off else c) = is_union c) by (intros [|]; [unfold raise_total; destruct (u32 off >? _); reflexivity|reflexivity]).
  assert (HM : forall (b : bool) x m, is_union (if b then set_max x m else x) = is_union x) by (intros [|] x m; reflexivity).
  rewrite HM, HC. reflexivity.
Qed.
Lemma update_union c t : is_union (UpdateStructSize c t) = is_union c.
Proof. unfold UpdateStructSize. destruct (is_union c) eqn:U; [destruct (_ >? _); exact U|]. cbv zeta. destruct (_ >? _); exact U. Qed.
Lemma run_union cs d c c' : run cs d c = Ok c' -> is_union c' = is_union c.
Proof.
  destruct d as [n sz ts vt|v|o|u n body]; cbn [run].
  - destruct (CreateStructField cs c n vt sz ts) as [c1| |] eqn:E; cbn [bindr]; [|discriminate|discriminate]. intros H. injection H as <-. rewrite update_union. eapply create_union. exact E.
  - unfold AlignInStruct. destruct (is_union c) eqn:U; [intros H; injection H as <-; exact U|]. destruct (align_int (offset c) v) as [o| |]; cbn [bindr]; try discriminate. intros H. injection H as <-. unfold raise_total. destruct (_ >? _); exact U.
  - unfold SetStructCurrentOffset. destruct (is_union c) eqn:U; [discriminate|]. intros H. injection H as <-. destruct (_ >? _); exact U.
  - destruct (match n with [] => false | _ => _ end); [discriminate|]. destruct (run_all (run cs) body _) as [inner| |]; cbn [bindr]; [|discriminate|discriminate].
    set (dir := finish inner). clearbody dir. destruct (CreateStructField cs c n _ _ _) as [c1| |] eqn:E; [|destruct n; discriminate|discriminate]. cbn [bindr]. intros H. injection H as <-. rewrite update_union.
    destruct (_ >? _); cbn [is_union set_max]; eapply create_union; exact E.
Qed.
Lemma run_no_err cs : forall d c, no_org (is_union c) d -> inner_distinct cs d -> shallow d -> depths (head c) <= 31 -> fresh cs c (dnames d) -> run cs d c <> Err.
Proof.
  apply (def_ind' (fun d => forall c, no_org (is_union c) d -> inner_distinct cs d -> shallow d -> depths (head c) <= 31 -> fresh cs c (dnames d) -> run cs d c <> Err)).
  - intros n sz ts vt c _ _ _ D F. cbn [run]. assert (F' : fresh cs c (field_names n vt)) by (destruct n; exact F). pose proof (create_no_err cs c n vt sz ts D F') as H.
    destruct (CreateStructField cs c n vt sz ts) as [c1| |]; cbn [bindr]; [discriminate|congruence|discriminate].
  - intros v c _ _ _ D F. cbn [run]. unfold AlignInStruct. destruct (is_union c); [discriminate|]. unfold align_int. destruct (_ >=? _); cbn [bindr]; discriminate.
  - intros o c NO _ _ D F. cbn [run no_org] in *. unfold SetStructCurrentOffset. rewrite NO. discriminate.
  - intros u n body IH c NO [ID1 ID2] [SH1 SH2] D F. cbn [run]. cbn [no_org] in NO.
    assert (FN : match n with [] => false | _ :: _ => found (SearchNameInStruct cs n 0 (head c)) end = false).
    { destruct n as [|ch n]; [reflexivity|]. apply fresh_not_found; [exact D|]. intros b INb. apply F; [left; reflexivity|exact INb]. }
    rewrite FN.
    assert (RN : run_all (run cs) body (open_struct u (alignment c)) <> Err).
    { apply run_all_no_err; [exact IH|exact NO|exact ID2|exact SH2|cbn [head open_struct]; change (depths []) with 0; pose proof (max_of_nonneg ddepth body); lia| |exact ID1|intros d x x' _; apply run_union]. intros ? ? _ []. }
    destruct (run_all (run cs) body (open_struct u (alignment c))) as [inner| |] eqn:RB; cbn [bindr]; [|congruence|discriminate].
    destruct (run_all_adds cs body ltac:(apply Forall_forall; intros d _; apply run_adds) _ _ RB) as [(N & DI & _) _]. cbn [head open_struct members flat_map names map app] in N.
    rewrite finish_head. set (dir := finish inner). clearbody dir.
    assert (F' : fresh cs c (field_names n (Some (head inner, max_mbr_size dir)))) by (destruct n; cbn [field_names vt_names dnames] in *; [rewrite N; exact F|exact F]).
    pose proof (create_no_err cs c n (Some (head inner, max_mbr_size dir)) (total_size dir) (total_size dir) D F') as H.
    destruct (CreateStructField cs c n (Some (head inner, max_mbr_size dir)) (total_size dir) (total_size dir)) as [c1| |]; cbn [bindr]; [discriminate|congruence|discriminate].
Qed.
