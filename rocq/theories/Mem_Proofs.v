(** Proofs for C28. *)
From Verif Require Import Base Mem_Model Mem_Spec.
From Coq Require Import Lia.

(** what set_rm_sib leaves in code_info *)
Definition fin (ci : cinfo) (opnd2 : bool) (modf rm rex sib : Z) (ov : option Z) (adrsiz : bool) (fx : option fixtype) (br : Z) : cinfo :=
  if opnd2 then
    {| c_adrsiz := adrsiz; c_rm := Z.lor (Z.lor modf (Z.shiftl rm 3)) (Z.land (c_rm ci) 7);
       c_rex := Z.lor (c_rex ci) (Z.lor (Z.lor (Z.shiftr rex 2) (Z.land rex 2)) (Z.shiftl (Z.land rex 1) 2));
       c_sib := sib; c_over := ov; c_basereg := br; c_fix := fx |}
  else
    {| c_adrsiz := adrsiz; c_rm := Z.lor modf rm; c_rex := Z.lor (c_rex ci) rex; c_sib := sib; c_over := ov; c_basereg := br; c_fix := fx |}.

Definition rng (n : nat) : list Z := map Z.of_nat (seq 0 n).
Lemma in_rng (n : nat) z : 0 <= z < Z.of_nat n -> In z (rng n).
Proof. intros H. apply in_map_iff. exists (Z.to_nat z). split; [lia|]. apply in_seq. lia. Qed.

(** ** the three forms of instructions *)
Definition final (f : form) (modf rm rex sib : Z) (ov : option Z) (adrsiz : bool) (fx : option fixtype) (br : Z) : cinfo :=
  match f with
  | FM _ w => fin {| c_adrsiz := false; c_rm := 0; c_rex := if w then 8 else 0; c_sib := 0; c_over := None; c_basereg := 0xff; c_fix := None |} false modf rm rex sib ov adrsiz fx br
  | FMR r => process_register (fin cinfo0 false modf rm rex sib ov adrsiz fx br) true r
  | FRM r => swap_dir (fin (process_register cinfo0 false r) true modf rm rex sib ov adrsiz fx br)
  end.
Definition insrm (f : form) : Z := match f with FM d _ => Z.shiftl d 3 | _ => 0 end.
Definition final_chk (f : form) (modf rm rex : Z) : bool :=
  let ci := final f modf rm rex 0 None false None 0 in
  let d := form_field f in
  (Z.lor (insrm f) (c_rm ci) =? modf + 8 * (d mod 8) + rm) && (Z.land (c_rm ci) 0xC0 =? modf) && (Z.land (c_rm ci) 7 =? rm) &&
  (Z.land (Z.lor (insrm f) (c_rm ci)) 0x7F =? modf mod 128 + 8 * (d mod 8) + rm) &&
  (Z.land (Z.lor (insrm f) (c_rm ci)) 0xC7 =? modf + rm) &&
  (if c_rex ci =? 0 then (rex =? 0) && (d <? 8) && negb (form_w f)
   else (Z.lor (c_rex ci) 0x40 =? 0x40 + (if form_w f then 8 else 0) + 4 * (d / 8) + rex) && (negb (rex =? 0) || match f with FM _ w => w | FMR r | FRM r => is_p64 r end)).
Definition all_forms : list form :=
  flat_map (fun d => [FM d false; FM d true]) (rng 8) ++
  flat_map (fun n => flat_map (fun r => [FMR r; FRM r]) [R8 n; R16 n; R32 n; R64 n]) (rng 16).
Lemma final_all : forallb (fun f => forallb (fun m => forallb (fun rm => forallb (final_chk f m rm) (rng 4)) (rng 8)) [0; 64; 128]) all_forms = true.
Proof. vm_compute. reflexivity. Qed.
Lemma in_all_forms s f : form_ok s f -> In f all_forms.
Proof.
  intros F. unfold all_forms. apply in_or_app. destruct f as [d w|r|r]; cbn [form_ok] in F.
  - left. apply in_flat_map. exists d. split; [apply in_rng; lia|]. destruct w; cbn; tauto.
  - right. apply in_flat_map. exists (regno r). destruct F as (H1 & H2 & _). split; [apply in_rng; lia|]. apply in_flat_map. exists r. split; [destruct r; cbn; tauto|cbn; tauto].
  - right. apply in_flat_map. exists (regno r). destruct F as (H1 & H2 & _). split; [apply in_rng; lia|]. apply in_flat_map. exists r. split; [destruct r; cbn; tauto|cbn; tauto].
Qed.

Definition okmod (m : Z) : Prop := m = 0 \/ m = 64 \/ m = 128.
Lemma final_spec s f modf rm rex sib ov adrsiz fx br : form_ok s f -> okmod modf -> 0 <= rm < 8 -> 0 <= rex < 4 ->
  let ci := final f modf rm rex sib ov adrsiz fx br in
  let d := form_field f in
  Z.lor (insrm f) (c_rm ci) = modf + 8 * (d mod 8) + rm /\ Z.land (c_rm ci) 0xC0 = modf /\ Z.land (c_rm ci) 7 = rm /\
  Z.land (Z.lor (insrm f) (c_rm ci)) 0x7F = modf mod 128 + 8 * (d mod 8) + rm /\ Z.land (Z.lor (insrm f) (c_rm ci)) 0xC7 = modf + rm /\
  (if c_rex ci =? 0 then rex = 0 /\ d < 8 /\ form_w f = false
   else Z.lor (c_rex ci) 0x40 = 0x40 + (if form_w f then 8 else 0) + 4 * (d / 8) + rex /\ (rex <> 0 \/ s = USE64)) /\
  c_sib ci = sib /\ c_over ci = ov /\ c_adrsiz ci = adrsiz /\ c_fix ci = fx /\ c_basereg ci = br.
Proof.
  intros F Hm Hr Hx ci d.
  pose proof final_all as A. rewrite forallb_forall in A. specialize (A f (in_all_forms s f F)).
  rewrite forallb_forall in A. assert (Im : In modf [0; 64; 128]) by (destruct Hm as [->|[->| ->]]; cbn; tauto). specialize (A modf Im).
  rewrite forallb_forall in A. specialize (A rm (in_rng 8 rm ltac:(lia))). rewrite forallb_forall in A. specialize (A rex (in_rng 4 rex ltac:(lia))).
  unfold final_chk in A.
  assert (E1 : c_rm (final f modf rm rex 0 None false None 0) = c_rm ci) by (unfold ci; destruct f; reflexivity).
  assert (E2 : c_rex (final f modf rm rex 0 None false None 0) = c_rex ci) by (unfold ci; destruct f; reflexivity).
  rewrite E1, E2 in A. repeat (apply andb_prop in A; destruct A as [A ?H]).
  fold d in A, H, H0, H1, H2, H3.
  apply Z.eqb_eq in A, H0, H1, H2, H3.
  split; [exact A|]. split; [exact H3|]. split; [exact H2|]. split; [exact H1|]. split; [exact H0|].
  split; [|unfold ci; destruct f; cbn; tauto].
  destruct (c_rex ci =? 0) eqn:X.
  - apply andb_prop in H as [H N]. apply andb_prop in H as [P Q]. apply Z.eqb_eq in P. apply Z.ltb_lt in Q. apply negb_true_iff in N. auto.
  - apply andb_prop in H as [P Q]. apply Z.eqb_eq in P. split; [exact P|]. apply orb_prop in Q as [Q|Q].
    + left. apply negb_true_iff, Z.eqb_neq in Q. exact Q.
    + right. destruct f as [d0 w|r|r]; cbn [form_ok] in F; tauto.
Qed.

(** ** prefixes and opcode *)
Lemma strip_app p l : strip p (p ++ l) = Some l.
Proof. induction p as [|a p IH]; cbn; [reflexivity|]. rewrite Z.eqb_refl. exact IH. Qed.
Definition no_prefix (b : Z) : Prop := b <> 0x66 /\ b <> 0x67 /\ seg_of_prefix b = None.
Lemma legacy_stop p seg b t : no_prefix b -> legacy p seg (b :: t) = (p, seg, b :: t).
Proof.
  intros (H1 & H2 & H3). cbn [legacy]. apply Z.eqb_neq in H1, H2. rewrite H1, H2, H3. reflexivity.
Qed.
Lemma sr_prefix_seg s : in_seg s -> seg_of_prefix (sr_prefix s) = Some s /\ sr_prefix s <> 0x66 /\ sr_prefix s <> 0x67.
Proof.
  unfold in_seg. intros H. assert (C : s = 0 \/ s = 1 \/ s = 2 \/ s = 3 \/ s = 4 \/ s = 5) by lia.
  destruct C as [->|[->|[->|[->|[->| ->]]]]]; (split; [reflexivity|split; vm_compute; congruence]).
Qed.
Definition pfx (p67 p66 : bool) (seg : option Z) : list Z :=
  (if p67 then [0x67] else []) ++ (if p66 then [0x66] else []) ++ match seg with Some s => [sr_prefix s] | None => [] end.
Lemma legacy_pfx p67 p66 seg b t : (forall s, seg = Some s -> in_seg s) -> no_prefix b ->
  legacy false None (pfx p67 p66 seg ++ b :: t) = (p67, seg, b :: t).
Proof.
  intros Hs Hb.
  assert (L : forall q, legacy q None (match seg with Some s => [sr_prefix s] | None => [] end ++ b :: t) = (q, seg, b :: t)).
  { intros q. destruct seg as [s|]; cbn [app].
    - destruct (sr_prefix_seg s (Hs s eq_refl)) as (E & N1 & N2). apply Z.eqb_neq in N1, N2. cbn [legacy]. rewrite N1, N2, E. apply legacy_stop, Hb.
    - apply legacy_stop, Hb. }
  unfold pfx. rewrite <- !app_assoc. destruct p67, p66; cbn [app legacy]; rewrite ?Z.eqb_refl; cbn [Z.eqb Pos.eqb]; apply L.
Qed.
Lemma decode_pfx mode opcode p67 p66 seg rexl rexv l : opcode_ok mode opcode -> (forall s, seg = Some s -> in_seg s) ->
  (rexl = [] /\ rexv = 0) \/ (rexl = [0x40 + rexv] /\ 0 <= rexv < 16 /\ mode = USE64) ->
  decode mode opcode (pfx p67 p66 seg ++ rexl ++ opcode ++ l) = dec_modrm mode p67 seg rexv l.
Proof.
  intros (b & t & -> & N1 & N2 & N3 & N4) Hs R. unfold decode. destruct R as [[-> ->]|(-> & R & ->)].
  - cbn [app]. rewrite (legacy_pfx _ _ _ b (t ++ l) Hs (conj N1 (conj N2 N3))).
    assert (E : (match mode with USE64 => if (0x40 <=? b) && (b <=? 0x4F) then (b - 0x40, t ++ l) else (0, b :: t ++ l) | _ => (0, b :: t ++ l) end) = (0, b :: t ++ l)).
    { destruct mode; try reflexivity. destruct ((0x40 <=? b) && (b <=? 0x4F)) eqn:X; [|reflexivity]. exfalso. apply andb_prop in X. apply N4. split; [reflexivity|lia]. }
    rewrite E. change (b :: t ++ l) with ((b :: t) ++ l). rewrite strip_app. reflexivity.
  - change ([0x40 + rexv] ++ (b :: t) ++ l) with ((0x40 + rexv) :: (b :: t) ++ l).
    rewrite (legacy_pfx _ _ _ (0x40 + rexv)); [|exact Hs|].
    + assert (X : (0x40 <=? 0x40 + rexv) && (0x40 + rexv <=? 0x4F) = true) by (apply andb_true_intro; lia).
      rewrite X. rewrite strip_app. replace (0x40 + rexv - 0x40) with rexv by lia. reflexivity.
    + split; [lia|]. split; [lia|]. unfold seg_of_prefix. repeat (match goal with |- context [?a =? ?b] => assert (a =? b = false) as -> by (apply Z.eqb_neq; lia) end). reflexivity.
Qed.

Definition shape (mode : ofssize) (asz md rm rexv sib : Z) : abase * option (Z * Z) * nat :=
  if asz =? 16 then shape16 md rm else shape32 mode md rm (8 * ((rexv / 2) mod 2)) (8 * (rexv mod 2)) sib.
(** the ModR/M byte and what follows *)
Lemma dec_modrm_eq mode p67 seg rexv modf reg rm sibl sib b x n dispb rest :
  okmod modf -> 0 <= rm < 8 -> 0 <= reg < 8 ->
  sibl = (if has_sib (addrbits mode p67) (modf / 64) rm then [sib] else []) ->
  shape mode (addrbits mode p67) (modf / 64) rm rexv (if has_sib (addrbits mode p67) (modf / 64) rm then sib else 0) = (b, x, n) ->
  length dispb = n ->
  dec_modrm mode p67 seg rexv ((modf + 8 * reg + rm) :: sibl ++ dispb ++ rest) =
  Some (reg + 8 * ((rexv / 4) mod 2), 8 <=? rexv,
        {| a_size := addrbits mode p67; a_base := b; a_index := x; a_disp := sext n (le_val dispb); a_seg := match seg with Some s => s | None => cpu_seg b end |}, rest).
Proof.
  intros Hm Hr Hg -> Hs Hl. unfold dec_modrm.
  assert (E1 : (modf + 8 * reg + rm) / 64 = modf / 64).
  { destruct Hm as [->|[->| ->]]; change (0 / 64) with 0; change (64 / 64) with 1; change (128 / 64) with 2; symmetry; apply Z.div_unique with (8 * reg + rm); lia. }
  assert (E2 : ((modf + 8 * reg + rm) / 8) mod 8 = reg).
  { symmetry. apply Z.mod_unique with (modf / 64); [lia|]. symmetry. apply Z.div_unique with rm; [lia|]. destruct Hm as [->|[->| ->]]; change (0 / 64) with 0; change (64 / 64) with 1; change (128 / 64) with 2; lia. }
  assert (E3 : (modf + 8 * reg + rm) mod 8 = rm).
  { symmetry. apply Z.mod_unique with (modf / 64 * 8 + reg); [lia|]. destruct Hm as [->|[->| ->]]; change (0 / 64) with 0; change (64 / 64) with 1; change (128 / 64) with 2; lia. }
  rewrite E1, E2, E3.
  assert (E4 : modf / 64 =? 3 = false) by (destruct Hm as [->|[->| ->]]; reflexivity). rewrite E4.
  unfold shape in Hs.
  assert (F1 : firstn n (dispb ++ rest) = dispb) by (subst n; rewrite firstn_app, firstn_all, Nat.sub_diag; cbn; apply app_nil_r).
  assert (F2 : skipn n (dispb ++ rest) = rest) by (subst n; rewrite skipn_app, skipn_all, Nat.sub_diag; reflexivity).
  assert (F3 : Z.of_nat n <=? zlen (dispb ++ rest) = true) by (apply Z.leb_le; unfold zlen; rewrite app_length; lia).
  destruct (has_sib _ _ _); cbn [app]; rewrite Hs, F1, F2, F3; reflexivity.
Qed.

(** ** displacements *)
Definition dispfit (asz : Z) (n : nat) (d : Z) : Prop :=
  match n with
  | O => swrap 32 d = 0 /\ (asz = 64 -> fits32 d)
  | 1%nat => -128 <= swrap 32 d <= 127 /\ (asz = 64 -> fits32 d)
  | 2%nat => asz = 16
  | 4%nat => asz = 64 -> fits32 d
  | _ => False
  end.
Definition asz_ok (a : Z) : Prop := a = 16 \/ a = 32 \/ a = 64.
Lemma swrap_mod_in w v : 0 < w -> swrap w (v mod 2 ^ w) = swrap w v.
Proof. intros H. unfold swrap. rewrite Zplus_mod_idemp_l. reflexivity. Qed.
Lemma swrap_cong w v v' : 0 < w -> v mod 2 ^ w = v' mod 2 ^ w -> swrap w v = swrap w v'.
Proof. intros H E. rewrite <- (swrap_mod_in w v), <- (swrap_mod_in w v'), E by exact H. reflexivity. Qed.
Lemma mod_down a b v v' : 0 <= a <= b -> v mod 2 ^ b = v' mod 2 ^ b -> v mod 2 ^ a = v' mod 2 ^ a.
Proof.
  intros H E. assert (D : (2 ^ a | 2 ^ b)) by (exists (2 ^ (b - a)); rewrite <- Z.pow_add_r by lia; f_equal; lia).
  rewrite (Znumtheory.Zmod_div_mod (2 ^ a) (2 ^ b) v), (Znumtheory.Zmod_div_mod (2 ^ a) (2 ^ b) v'), E; auto; apply pow2_pos; lia.
Qed.
Lemma swrap32_asz asz d : asz_ok asz -> (asz = 64 -> fits32 d) -> swrap 32 d mod 2 ^ asz = d mod 2 ^ asz.
Proof.
  intros [->|[->| ->]] F.
  - apply mod_down with 32; [lia|]. apply swrap_mod. lia.
  - apply swrap_mod. lia.
  - rewrite swrap_small; [reflexivity|lia|]. exact (F eq_refl).
Qed.
Lemma disp_ok asz n d : asz_ok asz -> dispfit asz n d -> sext n (le_val (le_bytes n d)) mod 2 ^ asz = d mod 2 ^ asz.
Proof.
  intros A F. rewrite le_val_le_bytes.
  destruct n as [|[|[|[|[|n]]]]]; cbn [dispfit] in F; unfold sext; try contradiction.
  - destruct F as [E F]. rewrite <- (swrap32_asz asz d A F), E. reflexivity.
  - destruct F as [E F]. change (8 * Z.of_nat 1) with 8. rewrite swrap_mod_in by lia.
    rewrite <- (swrap32_asz asz d A F). f_equal.
    rewrite (swrap_cong 8 d (swrap 32 d)); [|lia|].
    + apply swrap_small; [lia|]. change (2 ^ (8 - 1)) with 128. lia.
    + apply mod_down with 32; [lia|]. symmetry. apply swrap_mod. lia.
  - subst asz. change (8 * Z.of_nat 2) with 16. rewrite swrap_mod_in by lia. apply swrap_mod. lia.
  - change (8 * Z.of_nat 4) with 32. rewrite swrap_mod_in by lia. apply swrap32_asz; auto.
Qed.

(** ** sums of registers *)
Lemma mod_mod_same a m : (a mod m) mod m = a mod m. Proof. destruct (Z.eq_dec m 0) as [->|]; [rewrite !Zmod_0_r; reflexivity|apply Z.mod_mod; auto]. Qed.
Lemma sum_mod m a a' b b' c c' : a mod m = a' mod m -> b mod m = b' mod m -> c mod m = c' mod m -> (a + b + c) mod m = (a' + b' + c') mod m.
Proof. intros A B C. rewrite (Zplus_mod (a + b)), (Zplus_mod a b), A, B, C, <- (Zplus_mod a' b'), <- Zplus_mod. reflexivity. Qed.
Lemma mul_mod_r m s a : (s * (a mod m)) mod m = (s * a) mod m. Proof. rewrite Zmult_mod_idemp_r. reflexivity. Qed.

(** ** what is needed of the fields *)
Definition breg (o : memop) : Z := match o_base o with Some r => regno r | None => 255 end.
Record good (e : env) (o : memop) (modf rm rex sib : Z) (ov : option Z) (adrsiz : bool) (fx : option fixtype) (b : abase) (x : option (Z * Z)) (n : nat) : Prop := {
  g_mod : okmod modf;
  g_rm : 0 <= rm < 8;
  g_rex : 0 <= rex < 4;
  g_rex64 : rex <> 0 -> e_ofs e = USE64;
  g_br : o_base o = Some RIP -> modf = 0;
  g_br64 : breg o = 16 -> e_ofs e = USE64;
  g_asz : addrbits (e_ofs e) (adrsiz && negb (breg o =? 16)) = asize e o;
  g_sib : e_ofs e = USE32 -> adrsiz = true -> rm <> 4;
  g_shape : shape (e_ofs e) (asize e o) (modf / 64) rm rex (if has_sib (asize e o) (modf / 64) rm then sib else 0) = (b, x, n);
  g_disp : match fx with
           | Some t => n = fixwidth t
           | None => (n = 4%nat -> modf = 0 -> e_ofs e = USE64 -> fits32 (o_disp o)) -> dispfit (asize e o) n (o_disp o)
           end;
  g_ov : forall s, ov = Some s -> in_seg s;
  g_addr : forall rf ip d, (match b with BNone => 0 | BIP => ip | BReg r => rf r end + match x with Some (r, s) => s * rf r | None => 0 end + d) mod 2 ^ asize e o = written e o d rf ip;
  g_seg : same_seg e (match ov with Some s => s | None => cpu_seg b end) (source_seg e o);
  g_fix : fx = source_fix e o }.

(** segments *)
Lemma seg_good e o ci r direct C D ov a :
  operand_ok e o -> c_over ci = o_over o ->
  seg_override e ci r (match o_sym o with Some _ => true | None => false end) direct = (ov, a) ->
  same_seg e C (default_seg r) -> same_seg e C D ->
  source_seg e o = match o_over o with Some s => s | None => match o_sym o, e_chk e with Some _, Some s => s | _, _ => D end end ->
  (forall s, ov = Some s -> in_seg s) /\
  same_seg e (match ov with Some s => s | None => C end) (source_seg e o) /\
  a = (match o_over o, o_sym o with Some _, None => if direct then addrsize (e_ofs e) (e_dofs e) else c_adrsiz ci | _, _ => c_adrsiz ci end).
Proof.
  intros K Ho E H1 H2 ->. unfold seg_override in E. rewrite Ho in E. set (dd := default_seg r) in *.
  assert (Hd : in_seg dd) by (unfold dd, default_seg, in_seg; repeat match goal with |- context [match ?z with _ => _ end] => destruct z end; lia).
  pose proof (ok_over e o K) as Kv. pose proof (ok_chk e o K) as Kc.
  assert (R : forall s, same_seg e s s) by (intros; left; reflexivity).
  destruct (o_over o) as [s|].
  - apply pair_equal_spec in E as [<- <-].
    destruct (Z.eqb_spec s dd) as [->|N].
    + split; [discriminate|]. split; [exact H1|]. destruct (o_sym o), direct; reflexivity.
    + split; [intros ? [= <-]; apply Kv; reflexivity|]. split; [apply R|]. destruct (o_sym o), direct; reflexivity.
  - apply pair_equal_spec in E as [<- <-]. destruct (o_sym o) as [q|].
    + destruct (e_chk e) as [s|].
      * destruct (Z.eqb_spec s dd) as [->|N]; [split; [discriminate|]; split; [exact H1|reflexivity]|]. split; [intros ? [= <-]; apply Kc; reflexivity|]. split; [apply R|reflexivity].
      * rewrite Z.eqb_refl. split; [discriminate|]. split; [exact H2|reflexivity].
    + split; [discriminate|]. split; [exact H2|reflexivity].
Qed.

(** finite checks of the shapes *)
Definition triple_eqb (a b : abase * option (Z * Z) * nat) : bool :=
  let '(a1, a2, a3) := a in let '(b1, b2, b3) := b in
  (match a1, b1 with BNone, BNone => true | BIP, BIP => true | BReg n, BReg m => n =? m | _, _ => false end) &&
  (match a2, b2 with None, None => true | Some (p, q), Some (p', q') => (p =? p') && (q =? q') | _, _ => false end) && Nat.eqb a3 b3.
Lemma triple_eqb_eq a b : triple_eqb a b = true -> a = b.
Proof.
  destruct a as [[a1 a2] a3], b as [[b1 b2] b3]. unfold triple_eqb. intros H. apply andb_prop in H as [H H3]. apply andb_prop in H as [H1 H2]. apply Nat.eqb_eq in H3.
  f_equal; [f_equal|exact H3].
  - destruct a1, b1; try discriminate; try reflexivity. apply Z.eqb_eq in H1. congruence.
  - destruct a2 as [[p q]|], b2 as [[p' q']|]; try discriminate; try reflexivity. apply andb_prop in H2 as [P Q]. apply Z.eqb_eq in P, Q. congruence.
Qed.
Definition dsz (modf : Z) (big : nat) : nat := if modf =? 0 then 0%nat else if modf =? 64 then 1%nat else big.
Definition mod5 (n m : Z) : Z := if (n =? 5) && (m =? 0) then 64 else m.
Definition modes := [USE16; USE32; USE64].
Definition mods := [0; 64; 128].

Lemma shape_base_all : forallb (fun mode => forallb (fun m => forallb (fun n =>
  triple_eqb (shape32 mode (mod5 (Z.land n 7) m / 64) (Z.land n 7) (8 * ((Z.shiftr n 3 / 2) mod 2)) (8 * (Z.shiftr n 3 mod 2)) (if Z.land n 7 =? 4 then if Z.land n 7 =? 4 then 0x24 else 0 else 0))
    (BReg n, None, dsz (mod5 (Z.land n 7) m) 4)) (rng 16)) mods) modes = true.
Proof. vm_compute. reflexivity. Qed.
Lemma shape_pair_all : forallb (fun mode => forallb (fun m => forallb (fun n => forallb (fun x => forallb (fun k => (x =? 4) ||
  triple_eqb (shape32 mode (mod5 (Z.land n 7) m / 64) 4 (8 * (((Z.shiftl (Z.shiftr x 3) 1 + Z.shiftr n 3) / 2) mod 2)) (8 * ((Z.shiftl (Z.shiftr x 3) 1 + Z.shiftr n 3) mod 2))
                (Z.lor (Z.lor (64 * k) (Z.shiftl (Z.land x 7) 3)) (Z.land n 7)))
    (BReg n, Some (x, 2 ^ k), dsz (mod5 (Z.land n 7) m) 4)) (rng 4)) (rng 16)) (rng 16)) mods) modes = true.
Proof. vm_compute. reflexivity. Qed.
Lemma shape_index_all : forallb (fun mode => forallb (fun x => forallb (fun k => (x =? 4) ||
  triple_eqb (shape32 mode (0 / 64) 4 (8 * ((Z.shiftl (Z.shiftr x 3) 1 / 2) mod 2)) (8 * (Z.shiftl (Z.shiftr x 3) 1 mod 2)) (Z.lor (Z.lor (64 * k) (Z.shiftl (Z.land x 7) 3)) 5))
    (BNone, Some (x, 2 ^ k), 4%nat)) (rng 4)) (rng 16)) modes = true.
Proof. vm_compute. reflexivity. Qed.
Lemma in_modes m : In m modes. Proof. destruct m; cbn; tauto. Qed.
Lemma in_mods m : okmod m -> In m mods. Proof. intros [->|[->| ->]]; cbn; tauto. Qed.
Lemma shape_base mode m n : okmod m -> 0 <= n < 16 ->
  shape32 mode (mod5 (Z.land n 7) m / 64) (Z.land n 7) (8 * ((Z.shiftr n 3 / 2) mod 2)) (8 * (Z.shiftr n 3 mod 2)) (if Z.land n 7 =? 4 then if Z.land n 7 =? 4 then 0x24 else 0 else 0) =
    (BReg n, None, dsz (mod5 (Z.land n 7) m) 4).
Proof.
  intros Hm Hn. apply triple_eqb_eq. pose proof shape_base_all as A. rewrite forallb_forall in A. specialize (A mode (in_modes mode)). rewrite forallb_forall in A. specialize (A m (in_mods m Hm)).
  rewrite forallb_forall in A. exact (A n (in_rng 16 n ltac:(lia))).
Qed.
Lemma shape_pair mode m n x k : okmod m -> 0 <= n < 16 -> 0 <= x < 16 -> x <> 4 -> 0 <= k < 4 ->
  shape32 mode (mod5 (Z.land n 7) m / 64) 4 (8 * (((Z.shiftl (Z.shiftr x 3) 1 + Z.shiftr n 3) / 2) mod 2)) (8 * ((Z.shiftl (Z.shiftr x 3) 1 + Z.shiftr n 3) mod 2))
                (Z.lor (Z.lor (64 * k) (Z.shiftl (Z.land x 7) 3)) (Z.land n 7)) = (BReg n, Some (x, 2 ^ k), dsz (mod5 (Z.land n 7) m) 4).
Proof.
  intros Hm Hn Hx N Hk. apply triple_eqb_eq. pose proof shape_pair_all as A. rewrite forallb_forall in A. specialize (A mode (in_modes mode)). rewrite forallb_forall in A. specialize (A m (in_mods m Hm)).
  rewrite forallb_forall in A. specialize (A n (in_rng 16 n ltac:(lia))). rewrite forallb_forall in A. specialize (A x (in_rng 16 x ltac:(lia))). rewrite forallb_forall in A.
  specialize (A k (in_rng 4 k ltac:(lia))). apply orb_prop in A as [A|A]; [apply Z.eqb_eq in A; contradiction|exact A].
Qed.
Lemma shape_index mode x k : 0 <= x < 16 -> x <> 4 -> 0 <= k < 4 ->
  shape32 mode (0 / 64) 4 (8 * ((Z.shiftl (Z.shiftr x 3) 1 / 2) mod 2)) (8 * (Z.shiftl (Z.shiftr x 3) 1 mod 2)) (Z.lor (Z.lor (64 * k) (Z.shiftl (Z.land x 7) 3)) 5) = (BNone, Some (x, 2 ^ k), 4%nat).
Proof.
  intros Hx N Hk. apply triple_eqb_eq. pose proof shape_index_all as A. rewrite forallb_forall in A. specialize (A mode (in_modes mode)). rewrite forallb_forall in A.
  specialize (A x (in_rng 16 x ltac:(lia))). rewrite forallb_forall in A.
  specialize (A k (in_rng 4 k ltac:(lia))). apply orb_prop in A as [A|A]; [apply Z.eqb_eq in A; contradiction|exact A].
Qed.
Lemma reg_fin n : 0 <= n < 16 -> 0 <= Z.land n 7 < 8 /\ (Z.shiftr n 3 = 0 /\ n < 8 \/ Z.shiftr n 3 = 1 /\ 8 <= n).
Proof.
  intros H. assert (A : forallb (fun n => (0 <=? Z.land n 7) && (Z.land n 7 <? 8) && (if n <? 8 then Z.shiftr n 3 =? 0 else Z.shiftr n 3 =? 1)) (rng 16) = true) by (vm_compute; reflexivity).
  rewrite forallb_forall in A. specialize (A n (in_rng 16 n ltac:(lia))). apply andb_prop in A as [A B]. destruct (Z.ltb_spec n 8); apply Z.eqb_eq in B; lia.
Qed.

(** the mod field *)
Definition mod0 (fx : option fixtype) (disp : Z) : Z :=
  match fx with Some _ => 0x80 | None => if sex32 disp =? 0 then 0 else if (sex32 disp >? 127) || (sex32 disp <? -128) then 0x80 else 0x40 end.
Lemma mod0_ok fx disp : okmod (mod0 fx disp).
Proof. unfold mod0, okmod. destruct fx; [tauto|]. destruct (_ =? _); [tauto|]. destruct ((_ : bool) || _); tauto. Qed.
Lemma dsz_fit asz big r fx disp : (big = 4%nat \/ (big = 2%nat /\ asz = 16)) -> (asz = 64 -> fits32 disp) -> fx = None ->
  dispfit asz (dsz (mod5 r (mod0 fx disp)) big) disp.
Proof.
  intros Hb F ->. unfold mod0, sex32. assert (B : dispfit asz big disp) by (destruct Hb as [->|[-> ->]]; cbn; auto).
  destruct (Z.eqb_spec (swrap 32 disp) 0) as [E|E].
  - unfold mod5. destruct (r =? 5); cbn [andb Z.eqb]; cbn [dsz Z.eqb Pos.eqb dispfit]; split; auto; lia.
  - destruct ((swrap 32 disp >? 127) || (swrap 32 disp <? -128)) eqn:X.
    + unfold mod5. rewrite andb_false_r. exact B.
    + apply orb_false_elim in X as [X1 X2]. unfold mod5. rewrite andb_false_r. cbn. split; [|exact F]. rewrite Z.gtb_ltb in X1. apply Z.ltb_ge in X1, X2. lia.
Qed.
Lemma dsz_fix big r fx disp t : fx = Some t -> dsz (mod5 r (mod0 fx disp)) big = big.
Proof. intros ->. unfold mod0, mod5. rewrite andb_false_r. reflexivity. Qed.
Lemma mod5_ok r m : okmod m -> okmod (mod5 r m).
Proof. unfold mod5, okmod. destruct ((_ : bool) && _); tauto. Qed.

(** the check of the displacement *)
Definition hv_bad (disp : Z) : bool := negb (swrap 32 (disp / 2 ^ 32) =? 0) && (negb (swrap 32 (disp / 2 ^ 32) =? -1) || (sex32 disp >=? 0)).
Lemma hv_bad_spec disp : - 2 ^ 63 <= disp < 2 ^ 63 -> if hv_bad disp then ~ (- 2 ^ 31 <= disp < 2 ^ 32) else - 2 ^ 31 <= disp < 2 ^ 32.
Proof.
  intros H. set (h := disp / 2 ^ 32). set (l := disp mod 2 ^ 32).
  assert (E : disp = 2 ^ 32 * h + l) by (apply Z.div_mod; lia).
  assert (L : 0 <= l < 2 ^ 32) by (apply Z.mod_pos_bound; lia).
  assert (Hh : - 2 ^ 31 <= h < 2 ^ 31) by lia.
  assert (Es : swrap 32 h = h) by (apply swrap_small; lia).
  assert (Ed : swrap 32 disp = if l <? 2 ^ 31 then l else l - 2 ^ 32).
  { rewrite (swrap_cong 32 disp (if l <? 2 ^ 31 then l else l - 2 ^ 32)); [|lia|].
    - apply swrap_small; [lia|]. change (2 ^ (32 - 1)) with (2 ^ 31). destruct (Z.ltb_spec l (2 ^ 31)); lia.
    - fold l. destruct (l <? 2 ^ 31); [symmetry; apply Z.mod_small; lia|]. apply Z.mod_unique with (-1); lia. }
  unfold hv_bad, sex32. fold h. rewrite Es, Ed.
  destruct (Z.eqb_spec h 0); cbn [negb andb]; [lia|]. destruct (Z.eqb_spec h (-1)); cbn [negb andb orb]; [|lia].
  rewrite Z.geb_leb. destruct (Z.ltb_spec l (2 ^ 31)); [destruct (Z.leb_spec 0 l)|destruct (Z.leb_spec 0 (l - 2 ^ 32))]; lia.
Qed.

Definition nocode (ci : cinfo) : Prop := c_sib ci = 0 /\ c_adrsiz ci = false /\ c_basereg ci = 255.
Definition outcome (e : env) (o : memop) : Prop :=
  (exists modf rm rex sib ov adrsiz fx b x n, good e o modf rm rex sib ov adrsiz fx b x n /\
     (encodable e o <-> (n = 4%nat -> modf = 0 -> e_ofs e = USE64 -> fits32 (o_disp o))) /\
     forall ci opnd2, nocode ci -> process_address e ci opnd2 o = Ok (fin ci opnd2 modf rm rex sib ov adrsiz fx (breg o)))
  \/ (~ encodable e o /\ forall ci opnd2, nocode ci -> process_address e ci opnd2 o = Err).
Definition symb (o : memop) : bool := match o_sym o with Some _ => true | None => false end.
Definition ci_with (ci : cinfo) (o : memop) (adrsiz : bool) (fx : option fixtype) : cinfo :=
  {| c_adrsiz := adrsiz; c_rm := c_rm ci; c_rex := c_rex ci; c_sib := 0; c_over := o_over o; c_basereg := breg o; c_fix := fx |}.
Lemma pa_hv e o : o_base o <> None \/ o_index o <> None -> hv_bad (o_disp o) = true -> e_ofs e = USE64 -> forall ci opnd2, process_address e ci opnd2 o = Err.
Proof.
  intros H V E ci opnd2. unfold process_address. unfold hv_bad in V. rewrite E.
  assert (X : (match o_base o, o_index o with None, None => false | _, _ => true end) = true) by (destruct (o_base o), (o_index o); try reflexivity; destruct H; congruence).
  rewrite X. cbn [andb ofs_eqb]. rewrite andb_true_r. rewrite V. reflexivity.
Qed.
Lemma pa_mem e o ci opnd2 : ~ (hv_bad (o_disp o) = true /\ e_ofs e = USE64 /\ (o_base o <> None \/ o_index o <> None)) -> process_address e ci opnd2 o = memory_operand e ci opnd2 o.
Proof.
  intros H. unfold process_address. match goal with |- (if ?c then _ else _) = _ => destruct c eqn:X end; [|reflexivity].
  exfalso. apply H. apply andb_prop in X as [X X3]. apply andb_prop in X as [X X2]. apply andb_prop in X as [X0 X1].
  split; [unfold hv_bad; rewrite X1, X2; reflexivity|]. split; [destruct (e_ofs e); [discriminate|discriminate|reflexivity]|].
  destruct (o_base o); [left; congruence|]. destruct (o_index o); [right; congruence|discriminate].
Qed.
Lemma fix_indirect e adrsiz o : o_base o <> None \/ o_index o <> None ->
  fix_of e adrsiz o = (adrsiz, match o_sym o with None => None | Some s => Some (match s with USE64 => FIX_OFF32 | _ => if is_addr32 (e_ofs e) adrsiz then FIX_OFF32 else FIX_OFF16 end) end).
Proof. intros H. unfold fix_of. destruct (o_sym o); [|reflexivity]. destruct (o_base o), (o_index o); try reflexivity. destruct H; congruence. Qed.
(** with registers, the fixup is the one that the address size asks for *)
Lemma fix_reg e o a : operand_ok e o -> o_base o <> None \/ o_index o <> None -> o_base o <> Some RIP -> addrbits (e_ofs e) a = asize e o ->
  match o_sym o with None => None | Some s => Some (match s with USE64 => FIX_OFF32 | _ => if is_addr32 (e_ofs e) a then FIX_OFF32 else FIX_OFF16 end) end = source_fix e o.
Proof.
  intros K H N E. unfold source_fix. destruct (o_sym o) as [s|] eqn:Es; [|reflexivity]. f_equal.
  assert (R : rip_relative e o = false) by (unfold rip_relative; destruct (e_ofs e), (o_base o), (o_index o); try reflexivity; destruct H; congruence).
  rewrite R, <- E. pose proof (ok_sym e o K s Es) as [K1 K2]. pose proof (ok_sym32 e o K) as K3.
  destruct (e_ofs e) eqn:Eo, a, s; try reflexivity; exfalso; try (specialize (K1 eq_refl); discriminate); try (exact (K2 eq_refl eq_refl)).
  cbn [addrbits] in E. destruct (K3 eq_refl Es ltac:(congruence)). destruct H; contradiction.
Qed.

Ltac srs_ok := unfold set_rm_sib; cbn [c_over c_adrsiz c_rm c_rex c_sib c_fix c_basereg ci_with].

Lemma mem_base e o b ci opnd2 : operand_ok e o -> nocode ci -> o_base o = Some b -> o_index o = None ->
  memory_operand e ci opnd2 o =
  let a := reg_adrsiz (e_ofs e) b in
  set_rm_sib e (ci_with ci o a (match o_sym o with None => None | Some s => Some (match s with USE64 => FIX_OFF32 | _ => if is_addr32 (e_ofs e) a then FIX_OFF32 else FIX_OFF16 end) end))
    opnd2 0 (o_disp o) None (Some b) (symb o).
Proof.
  intros K (N1 & N2 & N3) Hb Hx. unfold memory_operand. rewrite Hb, Hx. cbn [c_adrsiz c_rm c_rex c_sib c_over c_basereg c_fix].
  assert (X : reg_adrsiz (e_ofs e) b && is_r16 b && ofs_eqb (e_ofs e) USE64 = false).
  { pose proof (ok_base e o K b Hb) as A. destruct b; cbn [is_r16]; rewrite ?andb_false_r; try reflexivity. cbn [areg] in A. destruct A as [_ A]. destruct (e_ofs e); rewrite ?andb_false_r; try reflexivity. congruence. }
  rewrite X. cbn [bindr]. rewrite fix_indirect by (left; congruence). cbv zeta. unfold ci_with, breg, symb. rewrite Hb, N1. reflexivity.
Qed.

Definition fx_of (e : env) (o : memop) (a : bool) : option fixtype :=
  match o_sym o with None => None | Some s => Some (match s with USE64 => FIX_OFF32 | _ => if is_addr32 (e_ofs e) a then FIX_OFF32 else FIX_OFF16 end) end.
Lemma srs_base_wide e ci o a fx opnd2 ss b n ov a' : b = R32 n \/ b = R64 n -> 0 <= n < 16 ->
  seg_override e (ci_with ci o a fx) (Some b) (symb o) false = (ov, a') ->
  set_rm_sib e (ci_with ci o a fx) opnd2 ss (o_disp o) None (Some b) (symb o) =
  Ok (fin ci opnd2 (mod5 (Z.land n 7) (mod0 fx (o_disp o))) (Z.land n 7) (Z.shiftr n 3) (if Z.land n 7 =? 4 then 0x24 else 0) ov a' fx (breg o)).
Proof.
  intros Hb Hn E. assert (X : n =? 16 = false) by (apply Z.eqb_neq; lia).
  destruct Hb as [-> | ->]; unfold set_rm_sib; rewrite E; cbn [c_fix ci_with c_sib c_rm c_rex regno]; rewrite X, !orb_false_r, ?andb_true_r; fold (mod0 fx (o_disp o));
    unfold mod5; fold sex32; cbn [c_basereg]; destruct opnd2; reflexivity.
Qed.
Lemma addrbits_wide s b n : areg s b -> b = R32 n \/ b = R64 n -> addrbits s (reg_adrsiz s b) = regbits b /\ (s = USE32 -> reg_adrsiz s b = false) /\ 0 <= n < 16 /\ (8 <= n -> s = USE64) /\ asz_ok (regbits b) /\ regbits b <> 16.
Proof.
  intros A [-> | ->]; cbn [areg] in A; destruct A as [A1 A2]; cbn [regbits]; unfold asz_ok.
  - split; [destruct s; reflexivity|]. split; [intros ->; reflexivity|]. split; [lia|]. split; [auto|]. split; [tauto|lia].
  - subst s. split; [reflexivity|]. split; [discriminate|]. split; [lia|]. split; [auto|]. split; [tauto|lia].
Qed.
Lemma written_sum e o d rf ip B X : rip_relative e o = false ->
  B mod 2 ^ asize e o = (match o_base o with Some b => regval rf ip b | None => 0 end) mod 2 ^ asize e o ->
  X mod 2 ^ asize e o = (match o_index o with Some x => (if o_scale o =? 0 then 1 else o_scale o) * regval rf ip x | None => 0 end) mod 2 ^ asize e o ->
  (B + X + d) mod 2 ^ asize e o = written e o d rf ip.
Proof. intros R H1 H2. unfold written. rewrite R, Z.add_0_r. apply sum_mod; auto. Qed.
Lemma rip_rel_base e o : o_base o <> None \/ o_index o <> None -> rip_relative e o = false.
Proof. unfold rip_relative. intros H. destruct (e_ofs e), (o_base o), (o_index o); try reflexivity. destruct H; congruence. Qed.
Lemma regval_wide rf ip b n : b = R32 n \/ b = R64 n -> rf n mod 2 ^ regbits b = regval rf ip b mod 2 ^ regbits b.
Proof. intros [-> | ->]; cbn [regval regbits]; rewrite mod_mod_same; reflexivity. Qed.
Lemma seg_wide e b n : areg (e_ofs e) b -> b = R32 n \/ b = R64 n -> same_seg e (cpu_seg (BReg n)) (default_seg (Some b)) /\ same_seg e (cpu_seg (BReg n)) (if stack_reg b then 2 else 3).
Proof.
  intros A Hb. unfold same_seg. destruct Hb as [-> | ->]; cbn [areg] in A; destruct A as [A1 A2].
  - assert (C : n = 4 \/ n = 5 \/ (n <> 4 /\ n <> 5)) by lia. destruct C as [->|[->|[N1 N2]]]; [split; left; reflexivity|split; left; reflexivity|].
    cbn [cpu_seg stack_reg]. apply Z.eqb_neq in N1 as M1, N2 as M2. rewrite M1, M2. cbn [orb]. split; left; [|reflexivity].
    unfold default_seg. destruct n as [|p|p]; try reflexivity. destruct p as [[[p|p|]|[p|p|]|]|[[p|p|]|[p|p|]|]|]; try reflexivity; lia.
  - split; right; (split; [exact A2|]); cbn [default_seg cpu_seg stack_reg]; destruct ((n =? 4) || (n =? 5)); lia.
Qed.

Lemma base_wide e o b n : operand_ok e o -> o_base o = Some b -> o_index o = None -> b = R32 n \/ b = R64 n -> outcome e o.
Proof.
  intros K Hb Hx Hw. pose proof (ok_base e o K b Hb) as A.
  destruct (addrbits_wide _ _ _ A Hw) as (A1 & A2 & A3 & A4 & A5 & A6).
  assert (Has : asize e o = regbits b) by (unfold asize; rewrite Hb; reflexivity).
  assert (Hnr : o_base o <> Some RIP) by (rewrite Hb; destruct Hw as [-> | ->]; congruence).
  assert (Hi : o_base o <> None \/ o_index o <> None) by (left; congruence).
  assert (Hen : encodable e o <-> (e_ofs e = USE64 -> - 2 ^ 31 <= o_disp o < 2 ^ 32)) by (unfold encodable; rewrite Hb, Hx; destruct Hw as [-> | ->]; tauto).
  pose proof (hv_bad_spec _ (ok_disp e o K)) as Hv.
  set (a := reg_adrsiz (e_ofs e) b) in *.
  assert (Hbr : (breg o =? 16) = false) by (unfold breg; rewrite Hb; destruct Hw as [-> | ->]; cbn [regno]; apply Z.eqb_neq; lia).
  destruct (hv_bad (o_disp o) && ofs_eqb (e_ofs e) USE64) eqn:V.
  - right. apply andb_prop in V as [V1 V2]. rewrite V1 in Hv. assert (E64 : e_ofs e = USE64) by (destruct (e_ofs e); [discriminate|discriminate|reflexivity]). split; [tauto|].
    intros ci opnd2 _. apply pa_hv; auto.
  - left. assert (Nv : ~ (hv_bad (o_disp o) = true /\ e_ofs e = USE64 /\ (o_base o <> None \/ o_index o <> None))) by (intros (V1 & V2 & _); rewrite V1, V2 in V; discriminate).
    destruct (seg_override e (ci_with cinfo0 o a (fx_of e o a)) (Some b) (symb o) false) as [ov a'] eqn:Es.
    destruct (seg_wide e b n A Hw) as [S1 S2].
    assert (Hss : source_seg e o = match o_over o with Some s => s | None => match o_sym o, e_chk e with Some _, Some s => s | _, _ => if stack_reg b then 2 else 3 end end) by (unfold source_seg; rewrite Hb, Hx; reflexivity).
    destruct (seg_good e o (ci_with cinfo0 o a (fx_of e o a)) _ _ _ _ _ _ K eq_refl Es S1 S2 Hss) as (G1 & G2 & G3). cbn [c_adrsiz ci_with] in G3.
    assert (Ha' : a' = a) by (rewrite G3; destruct (o_over o), (o_sym o); reflexivity). clear G3.
    set (fx := fx_of e o a) in *.
    assert (Hfx : fx = source_fix e o) by (apply fix_reg; auto; congruence).
    set (md := mod5 (Z.land n 7) (mod0 fx (o_disp o))).
    exists md, (Z.land n 7), (Z.shiftr n 3), (if Z.land n 7 =? 4 then 0x24 else 0), ov, a', fx, (BReg n), None, (dsz md 4).
    destruct (reg_fin n A3) as [F1 F2].
    assert (Fit : asize e o = 64 -> fits32 (o_disp o)) by (intros E; exact (ok_disp64 e o K E Hi)).
    split; [|split].
    + constructor; auto.
      * apply mod5_ok, mod0_ok.
      * lia.
      * intros H. apply A4. lia.
      * contradiction.
      * intros H. apply Z.eqb_neq in Hbr. contradiction.
      * rewrite Hbr, andb_true_r, Ha', Has. exact A1.
      * intros E1 E2. rewrite Ha', (A2 E1) in E2. discriminate.
      * rewrite Has. unfold shape, has_sib. apply Z.eqb_neq in A6. rewrite A6. cbn [negb andb]. apply shape_base; [apply mod0_ok|exact A3].
      * destruct fx as [t|] eqn:Ef.
        -- unfold md. rewrite (dsz_fix 4 _ _ _ t) by reflexivity. clear -Hfx Has A6. unfold source_fix in Hfx. destruct (o_sym o); [|discriminate]. injection Hfx as ->. rewrite Has.
           apply Z.eqb_neq in A6. rewrite A6. destruct (rip_relative e o); reflexivity.
        -- intros _. apply dsz_fit; auto.
      * intros rf ip d. apply written_sum; [apply rip_rel_base; exact Hi| |].
        -- rewrite Hb, Has. apply regval_wide, Hw.
        -- rewrite Hx. reflexivity.
    + rewrite Hen. split.
      * intros _ N0 M0 _. exfalso. rewrite M0 in N0. discriminate.
      * intros _ E64. destruct (hv_bad (o_disp o)); [|exact Hv]. exfalso. apply Nv. auto.
    + intros ci opnd2 Hc. rewrite pa_mem by exact Nv. rewrite (mem_base e o b ci opnd2 K Hc Hb Hx). cbv zeta. fold a. fold (fx_of e o a). fold fx.
      apply srs_base_wide; auto. 
Qed.

(** ** with index *)
Lemma mem_index e o x ci opnd2 : operand_ok e o -> nocode ci -> o_index o = Some x ->
  memory_operand e ci opnd2 o =
  let a := reg_adrsiz (e_ofs e) x in
  if regno x =? 4 then Err else
  bindr (scale_bits e a (o_scale o)) (fun ss => set_rm_sib e (ci_with ci o a (fx_of e o a)) opnd2 ss (o_disp o) (Some x) (o_base o) (symb o)).
Proof.
  intros K (N1 & N2 & N3) Hx. unfold memory_operand. rewrite Hx. cbn [c_adrsiz c_rm c_rex c_sib c_over c_basereg c_fix].
  assert (X : exists q, match o_base o with Some b => if reg_adrsiz (e_ofs e) b && is_r16 b && ofs_eqb (e_ofs e) USE64 then Err else Ok (reg_adrsiz (e_ofs e) b) | None => Ok (c_adrsiz ci) end = Ok q).
  { destruct (o_base o) as [b|] eqn:Hb; [|eauto]. pose proof (ok_base e o K b Hb) as A.
    assert (X : reg_adrsiz (e_ofs e) b && is_r16 b && ofs_eqb (e_ofs e) USE64 = false).
    { destruct b; cbn [is_r16]; rewrite ?andb_false_r; try reflexivity. cbn [areg] in A. destruct A as [_ A]. destruct (e_ofs e); rewrite ?andb_false_r; try reflexivity. congruence. }
    rewrite X. eauto. }
  destruct X as [q ->]. cbn [bindr]. cbv zeta. destruct (regno x =? 4); [reflexivity|].
  destruct (scale_bits e (reg_adrsiz (e_ofs e) x) (o_scale o)) as [ss| |]; cbn [bindr]; try reflexivity.
  rewrite fix_indirect by (right; congruence). unfold ci_with, breg, symb, fx_of. rewrite N1, N3. destruct (o_base o); reflexivity.
Qed.
Lemma scale_wide e x n : areg (e_ofs e) x -> x = R32 n \/ x = R64 n -> forall sc,
  (exists k, 0 <= k < 4 /\ scale_bits e (reg_adrsiz (e_ofs e) x) sc = Ok (64 * k) /\ 2 ^ k = (if sc =? 0 then 1 else sc) /\ scale_ok sc /\ e_386 e = true) \/
  (scale_bits e (reg_adrsiz (e_ofs e) x) sc = Err /\ ~ (scale_ok sc /\ e_386 e = true)).
Proof.
  intros A Hw sc.
  assert (E : scale_bits e (reg_adrsiz (e_ofs e) x) sc = if e_386 e then if (sc =? 0) || (sc =? 1) then Ok 0 else if sc =? 2 then Ok 0x40 else if sc =? 4 then Ok 0x80 else if sc =? 8 then Ok 0xC0 else Err else Err).
  { unfold scale_bits, reg_adrsiz. destruct Hw as [-> | ->]; cbn [areg] in A; destruct A as [_ A]; [|rewrite A; reflexivity]. destruct (e_ofs e); reflexivity. }
  rewrite E. clear E. unfold scale_ok. destruct (e_386 e); [|right; split; [reflexivity|intros [_ ?]; discriminate]].
  destruct (Z.eqb_spec sc 0) as [Hz|]; [rewrite Hz; left; exists 0; cbn; repeat split; auto; lia|].
  destruct (Z.eqb_spec sc 1) as [Hz|]; [rewrite Hz; left; exists 0; cbn; repeat split; auto; lia|].
  destruct (Z.eqb_spec sc 2) as [Hz|]; [rewrite Hz; left; exists 1; cbn; repeat split; auto; lia|].
  destruct (Z.eqb_spec sc 4) as [Hz|]; [rewrite Hz; left; exists 2; cbn; repeat split; auto; lia|].
  destruct (Z.eqb_spec sc 8) as [Hz|]; [rewrite Hz; left; exists 3; cbn; repeat split; auto; lia|].
  right. cbn. split; [reflexivity|]. lia.
Qed.
Lemma srs_index_wide e ci o a fx opnd2 ss x n ov a' : x = R32 n \/ x = R64 n -> 
  seg_override e (ci_with ci o a fx) None (symb o) false = (ov, a') ->
  set_rm_sib e (ci_with ci o a fx) opnd2 ss (o_disp o) (Some x) None (symb o) =
  Ok (fin ci opnd2 0 4 (Z.shiftl (Z.shiftr n 3) 1) (Z.lor (Z.lor ss (Z.shiftl (Z.land n 7) 3)) 5) ov a' fx (breg o)).
Proof.
  intros Hb E. destruct Hb as [-> | ->]; unfold set_rm_sib; rewrite E; cbn [c_fix ci_with c_sib c_rm c_rex regno c_basereg]; destruct opnd2; reflexivity.
Qed.
Lemma default_seg_none : default_seg None = 3. Proof. reflexivity. Qed.
Lemma index_wide e o x n : operand_ok e o -> o_base o = None -> o_index o = Some x -> x = R32 n \/ x = R64 n -> outcome e o.
Proof.
  intros K Hb Hx Hw. pose proof (ok_index e o K x Hx) as A.
  destruct (addrbits_wide _ _ _ A Hw) as (A1 & A2 & A3 & A4 & A5 & A6).
  assert (Has : asize e o = regbits x) by (unfold asize; rewrite Hb, Hx; reflexivity).
  assert (Hi : o_base o <> None \/ o_index o <> None) by (right; congruence).
  assert (Hrn : regno x = n) by (destruct Hw as [-> | ->]; reflexivity).
  assert (H32 : 32 <= regbits x) by (destruct Hw as [-> | ->]; cbn; lia).
  assert (Hen : encodable e o <-> ((n <> 4 /\ scale_ok (o_scale o) /\ e_386 e = true) /\ (e_ofs e = USE64 -> fits32 (o_disp o)))) by (unfold encodable; rewrite Hb, Hx, Hrn; tauto).
  pose proof (hv_bad_spec _ (ok_disp e o K)) as Hv.
  set (a := reg_adrsiz (e_ofs e) x) in *.
  assert (Hbr : (breg o =? 16) = false) by (unfold breg; rewrite Hb; reflexivity).
  destruct (hv_bad (o_disp o) && ofs_eqb (e_ofs e) USE64) eqn:V.
  - right. apply andb_prop in V as [V1 V2]. rewrite V1 in Hv. assert (E64 : e_ofs e = USE64) by (destruct (e_ofs e); [discriminate|discriminate|reflexivity]). split.
    + rewrite Hen. intros [_ F]. specialize (F E64). unfold fits32 in F. lia.
    + intros ci opnd2 _. apply pa_hv; auto.
  - assert (Nv : ~ (hv_bad (o_disp o) = true /\ e_ofs e = USE64 /\ (o_base o <> None \/ o_index o <> None))) by (intros (V1 & V2 & _); rewrite V1, V2 in V; discriminate).
    assert (Hm : forall ci opnd2, nocode ci -> process_address e ci opnd2 o = if n =? 4 then Err else
       bindr (scale_bits e a (o_scale o)) (fun ss => set_rm_sib e (ci_with ci o a (fx_of e o a)) opnd2 ss (o_disp o) (Some x) None (symb o))).
    { intros ci opnd2 Hc. rewrite pa_mem by exact Nv. rewrite (mem_index e o x ci opnd2 K Hc Hx). cbv zeta. rewrite Hrn, Hb. reflexivity. }
    destruct (Z.eqb_spec n 4) as [N4|N4]; [right; split; [tauto|]; intros ci opnd2 Hc; rewrite Hm by exact Hc; reflexivity|].
    destruct (scale_wide e x n A Hw (o_scale o)) as [(k & Hk & Ek & Ek2 & Hs & H386)|[Es Ns]]; [|right; split; [tauto|]; intros ci opnd2 Hc; rewrite Hm by exact Hc; fold a in Es; rewrite Es; reflexivity].
    left. fold a in Ek.
    destruct (seg_override e (ci_with cinfo0 o a (fx_of e o a)) None (symb o) false) as [ov a'] eqn:Es.
    assert (S1 : same_seg e (cpu_seg BNone) (default_seg None)) by (left; reflexivity).
    assert (S2 : same_seg e (cpu_seg BNone) 3) by (left; reflexivity).
    assert (Hss : source_seg e o = match o_over o with Some s => s | None => match o_sym o, e_chk e with Some _, Some s => s | _, _ => 3 end end) by (unfold source_seg; rewrite Hb; reflexivity).
    destruct (seg_good e o (ci_with cinfo0 o a (fx_of e o a)) _ _ _ _ _ _ K eq_refl Es S1 S2 Hss) as (G1 & G2 & G3). cbn [c_adrsiz ci_with] in G3.
    assert (Ha' : a' = a) by (rewrite G3; destruct (o_over o), (o_sym o); reflexivity). clear G3.
    set (fx := fx_of e o a) in *.
    assert (Hfx : fx = source_fix e o) by (apply fix_reg; auto; congruence).
    exists 0, 4, (Z.shiftl (Z.shiftr n 3) 1), (Z.lor (Z.lor (64 * k) (Z.shiftl (Z.land n 7) 3)) 5), ov, a', fx, BNone, (Some (n, 2 ^ k)), 4%nat.
    destruct (reg_fin n A3) as [F1 F2].
    assert (Hrx : Z.shiftl (Z.shiftr n 3) 1 = 2 * Z.shiftr n 3) by (rewrite Z.shiftl_mul_pow2 by lia; lia).
    split; [|split].
    + constructor; auto; try lia.
      * left. reflexivity.
      * intros H. apply A4. lia.
      * rewrite Hbr, andb_true_r, Ha', Has. exact A1.
      * intros E1 E2. rewrite Ha', (A2 E1) in E2. discriminate.
      * rewrite Has. unfold shape, has_sib. apply Z.eqb_neq in A6. rewrite A6. change (negb false && (4 =? 4)) with true. cbn iota. apply shape_index; auto.
      * destruct fx as [t|] eqn:Ef.
        -- clear -Hfx Has A6. unfold source_fix in Hfx. destruct (o_sym o); [|discriminate]. injection Hfx as ->. rewrite Has.
           apply Z.eqb_neq in A6. rewrite A6. destruct (rip_relative e o); reflexivity.
        -- intros F. cbn [dispfit]. rewrite Has. intros E. apply F; auto. clear -Hw E A. destruct Hw as [-> | ->]; [discriminate|]. apply A.
      * intros rf ip d. apply written_sum; [apply rip_rel_base; exact Hi| |].
        -- rewrite Hb. reflexivity.
        -- rewrite Hx, Has, Ek2. rewrite Zmult_mod, (regval_wide rf ip x n Hw), <- Zmult_mod. reflexivity.
    + rewrite Hen. tauto.
    + intros ci opnd2 Hc. rewrite Hm by exact Hc. rewrite Ek. cbn [bindr]. fold fx. apply srs_index_wide; auto.
Qed.

Lemma srs_pair_wide e ci o a fx opnd2 ss b x n m ov a' : (b = R32 n /\ x = R32 m) \/ (b = R64 n /\ x = R64 m) -> m <> 4 ->
  seg_override e (ci_with ci o a fx) (Some b) (symb o) false = (ov, a') ->
  set_rm_sib e (ci_with ci o a fx) opnd2 ss (o_disp o) (Some x) (Some b) (symb o) =
  Ok (fin ci opnd2 (mod5 (Z.land n 7) (mod0 fx (o_disp o))) 4 (Z.shiftl (Z.shiftr m 3) 1 + Z.shiftr n 3) (Z.lor (Z.lor ss (Z.shiftl (Z.land m 7) 3)) (Z.land n 7)) ov a' fx (breg o)).
Proof.
  intros Hb N4 E.
  assert (H : set_rm_sib e (ci_with ci o a fx) opnd2 ss (o_disp o) (Some x) (Some b) (symb o) =
    match x with R64 4 | R32 4 => Err | _ => 
    Ok (fin ci opnd2 (mod5 (Z.land n 7) (mod0 fx (o_disp o))) 4 (Z.shiftl (Z.shiftr m 3) 1 + Z.shiftr n 3) (Z.lor (Z.lor ss (Z.shiftl (Z.land m 7) 3)) (Z.land n 7)) ov a' fx (breg o)) end).
  { unfold set_rm_sib. destruct Hb as [[-> ->] | [-> ->]]; rewrite E; cbn [c_fix ci_with c_sib c_rm c_rex regno c_basereg sizmsk]; rewrite !orb_false_r, ?andb_true_r; fold (mod0 fx (o_disp o)).
    - change (Z.land 4 4 =? 0) with false. cbn iota. destruct opnd2; reflexivity.
    - change (Z.land 8 8 =? 0) with false. cbn iota. destruct opnd2; reflexivity. }
  rewrite H. clear - N4 Hb. destruct Hb as [[_ ->] | [_ ->]]; destruct m as [|p|p]; try reflexivity; destruct p as [p|[p|[p|p|]|]|]; try reflexivity; congruence.
Qed.
Lemma pair_wide e o b x n m : operand_ok e o -> o_base o = Some b -> o_index o = Some x -> (b = R32 n /\ x = R32 m) \/ (b = R64 n /\ x = R64 m) -> outcome e o.
Proof.
  intros K Hb Hx Hw2. pose proof (ok_base e o K b Hb) as A. pose proof (ok_index e o K x Hx) as Ax.
  assert (Hw : b = R32 n \/ b = R64 n) by tauto. assert (Hwx : x = R32 m \/ x = R64 m) by tauto.
  assert (Hrb : regbits b = regbits x) by (destruct Hw2 as [[-> ->]|[-> ->]]; reflexivity).
  assert (Hra : reg_adrsiz (e_ofs e) b = reg_adrsiz (e_ofs e) x) by (destruct Hw2 as [[-> ->]|[-> ->]]; reflexivity).
  destruct (addrbits_wide _ _ _ A Hw) as (A1 & A2 & A3 & A4 & A5 & A6).
  destruct (addrbits_wide _ _ _ Ax Hwx) as (B1 & B2 & B3 & B4 & B5 & B6).
  assert (Has : asize e o = regbits b) by (unfold asize; rewrite Hb; reflexivity).
  assert (Hnr : o_base o <> Some RIP) by (rewrite Hb; destruct Hw as [-> | ->]; congruence).
  assert (Hi : o_base o <> None \/ o_index o <> None) by (right; congruence).
  assert (Hrn : regno x = m) by (destruct Hwx as [-> | ->]; reflexivity).
  assert (H32 : 32 <= regbits b) by (destruct Hw as [-> | ->]; cbn; lia).
  assert (Hen : encodable e o <-> ((m <> 4 /\ scale_ok (o_scale o) /\ e_386 e = true) /\ (e_ofs e = USE64 -> - 2 ^ 31 <= o_disp o < 2 ^ 32))).
  { unfold encodable. rewrite Hb, Hx, Hrn. assert (P : ~ pair16 b x) by (destruct Hw as [-> | ->]; cbn; tauto). destruct Hw as [-> | ->]; tauto. }
  pose proof (hv_bad_spec _ (ok_disp e o K)) as Hv. rewrite Hra in *.
  set (a := reg_adrsiz (e_ofs e) x) in *.
  assert (Hbr : (breg o =? 16) = false) by (unfold breg; rewrite Hb; destruct Hw as [-> | ->]; cbn [regno]; apply Z.eqb_neq; lia).
  destruct (hv_bad (o_disp o) && ofs_eqb (e_ofs e) USE64) eqn:V.
  - right. apply andb_prop in V as [V1 V2]. rewrite V1 in Hv. assert (E64 : e_ofs e = USE64) by (destruct (e_ofs e); [discriminate|discriminate|reflexivity]). split; [tauto|].
    intros ci opnd2 _. apply pa_hv; auto.
  - assert (Nv : ~ (hv_bad (o_disp o) = true /\ e_ofs e = USE64 /\ (o_base o <> None \/ o_index o <> None))) by (intros (V1 & V2 & _); rewrite V1, V2 in V; discriminate).
    assert (Hm : forall ci opnd2, nocode ci -> process_address e ci opnd2 o = if m =? 4 then Err else
       bindr (scale_bits e a (o_scale o)) (fun ss => set_rm_sib e (ci_with ci o a (fx_of e o a)) opnd2 ss (o_disp o) (Some x) (Some b) (symb o))).
    { intros ci opnd2 Hc. rewrite pa_mem by exact Nv. rewrite (mem_index e o x ci opnd2 K Hc Hx). cbv zeta. rewrite Hrn, Hb. reflexivity. }
    destruct (Z.eqb_spec m 4) as [N4|N4]; [right; split; [tauto|]; intros ci opnd2 Hc; rewrite Hm by exact Hc; reflexivity|].
    destruct (scale_wide e x m Ax Hwx (o_scale o)) as [(k & Hk & Ek & Ek2 & Hs & H386)|[Es Ns]]; [|right; split; [tauto|]; intros ci opnd2 Hc; rewrite Hm by exact Hc; fold a in Es; rewrite Es; reflexivity].
    left. fold a in Ek.
    destruct (seg_override e (ci_with cinfo0 o a (fx_of e o a)) (Some b) (symb o) false) as [ov a'] eqn:Es.
    destruct (seg_wide e b n A Hw) as [S1 S2].
    assert (Hss : source_seg e o = match o_over o with Some s => s | None => match o_sym o, e_chk e with Some _, Some s => s | _, _ => if stack_reg b then 2 else 3 end end).
    { unfold source_seg. rewrite Hb, Hx. destruct Hwx as [-> | ->]; reflexivity. }
    destruct (seg_good e o (ci_with cinfo0 o a (fx_of e o a)) _ _ _ _ _ _ K eq_refl Es S1 S2 Hss) as (G1 & G2 & G3). cbn [c_adrsiz ci_with] in G3.
    assert (Ha' : a' = a) by (rewrite G3; destruct (o_over o), (o_sym o); reflexivity). clear G3.
    set (fx := fx_of e o a) in *.
    assert (Hfx : fx = source_fix e o) by (apply fix_reg; auto; congruence).
    set (md := mod5 (Z.land n 7) (mod0 fx (o_disp o))).
    exists md, 4, (Z.shiftl (Z.shiftr m 3) 1 + Z.shiftr n 3), (Z.lor (Z.lor (64 * k) (Z.shiftl (Z.land m 7) 3)) (Z.land n 7)), ov, a', fx, (BReg n), (Some (m, 2 ^ k)), (dsz md 4).
    destruct (reg_fin n A3) as [F1 F2]. destruct (reg_fin m B3) as [F3 F4].
    assert (Hrx : Z.shiftl (Z.shiftr m 3) 1 = 2 * Z.shiftr m 3) by (rewrite Z.shiftl_mul_pow2 by lia; lia).
    assert (Fit : asize e o = 64 -> fits32 (o_disp o)) by (intros E; exact (ok_disp64 e o K E Hi)).
    split; [|split].
    + constructor; auto; try lia.
      * apply mod5_ok, mod0_ok.
      * intros H. destruct F2 as [F2|F2]; [|apply A4; lia]. destruct F4; [|apply B4; lia]. lia.
      * contradiction.
      * rewrite Hbr, andb_true_r, Ha', Has. exact A1.
      * intros E1 E2. rewrite Ha', (A2 E1) in E2. discriminate.
      * rewrite Has. unfold shape, has_sib. apply Z.eqb_neq in A6. rewrite A6. change (negb false && (4 =? 4)) with true. cbn iota. apply shape_pair; auto. apply mod0_ok.
      * destruct fx as [t|] eqn:Ef.
        -- unfold md. rewrite (dsz_fix 4 _ _ _ t) by reflexivity. clear -Hfx Has A6. unfold source_fix in Hfx. destruct (o_sym o); [|discriminate]. injection Hfx as ->. rewrite Has.
           apply Z.eqb_neq in A6. rewrite A6. destruct (rip_relative e o); reflexivity.
        -- intros _. apply dsz_fit; auto.
      * intros rf ip d. apply written_sum; [apply rip_rel_base; exact Hi| |].
        -- rewrite Hb, Has. apply regval_wide, Hw.
        -- rewrite Hx, Has, Hrb, Ek2. rewrite Zmult_mod, (regval_wide rf ip x m Hwx), <- Zmult_mod. reflexivity.
    + rewrite Hen. split.
      * intros _ N0 M0 _. exfalso. rewrite M0 in N0. discriminate.
      * intros _. split; [tauto|]. intros E64. destruct (hv_bad (o_disp o)); [|exact Hv]. exfalso. apply Nv. auto.
    + intros ci opnd2 Hc. rewrite Hm by exact Hc. rewrite Ek. cbn [bindr]. fold fx. apply srs_pair_wide; auto.
Qed.

(** registers of different sizes *)
Lemma pair_mixed e o b x : operand_ok e o -> o_base o = Some b -> o_index o = Some x -> Z.land (sizmsk b) (sizmsk x) = 0 -> outcome e o.
Proof.
  intros K Hb Hx Hz. right. pose proof (ok_base e o K b Hb) as A. pose proof (ok_index e o K x Hx) as Ax. split.
  - unfold encodable. rewrite Hb, Hx. intros [[[P _]|[P _]] _].
    + destruct b, x; cbn in P; try contradiction. discriminate.
    + destruct b, x; cbn in P, Hz; try discriminate; contradiction.
  - intros ci opnd2 Hc. destruct (hv_bad (o_disp o) && ofs_eqb (e_ofs e) USE64) eqn:V.
    + apply andb_prop in V as [V1 V2]. assert (E64 : e_ofs e = USE64) by (destruct (e_ofs e); [discriminate|discriminate|reflexivity]). apply pa_hv; auto. left. congruence.
    + rewrite pa_mem by (intros (V1 & V2 & _); rewrite V1, V2 in V; discriminate). rewrite (mem_index e o x ci opnd2 K Hc Hx). cbv zeta. rewrite Hb.
      destruct (regno x =? 4); [reflexivity|].
      assert (NU : scale_bits e (reg_adrsiz (e_ofs e) x) (o_scale o) <> UB) by (unfold scale_bits; repeat match goal with |- context [if ?c then _ else _] => destruct c end; discriminate).
      destruct (scale_bits e (reg_adrsiz (e_ofs e) x) (o_scale o)) as [ss| |]; [|reflexivity|contradiction]. cbn [bindr]. unfold set_rm_sib. rewrite Hz. reflexivity.
Qed.

(** ** 16-bit registers *)
Lemma r16_facts s n : areg s (R16 n) -> (n = 3 \/ n = 5 \/ n = 6 \/ n = 7) /\ addrbits s (reg_adrsiz s (R16 n)) = 16 /\ s <> USE64.
Proof. cbn [areg]. intros [H N]. split; [exact H|]. split; [|exact N]. destruct s; [reflexivity|reflexivity|congruence]. Qed.
Definition rm16 (n : Z) : Z := if n =? 6 then 4 else if n =? 7 then 5 else if n =? 5 then 6 else 7.
Lemma srs_base16 e ci o a fx opnd2 ss n ov a' : n = 3 \/ n = 5 \/ n = 6 \/ n = 7 ->
  seg_override e (ci_with ci o a fx) (Some (R16 n)) (symb o) false = (ov, a') ->
  set_rm_sib e (ci_with ci o a fx) opnd2 ss (o_disp o) None (Some (R16 n)) (symb o) =
  Ok (fin ci opnd2 (mod5 n (mod0 fx (o_disp o))) (rm16 n) 0 0 ov a' fx (breg o)).
Proof.
  intros Hn E. unfold set_rm_sib. rewrite E. cbn [c_fix ci_with c_sib c_rm c_rex c_basereg]. rewrite !orb_false_r. fold (mod0 fx (o_disp o)).
  destruct Hn as [->|[->|[->| ->]]]; destruct opnd2; reflexivity.
Qed.
Lemma shape16_base n m : n = 3 \/ n = 5 \/ n = 6 \/ n = 7 -> okmod m -> shape16 (mod5 n m / 64) (rm16 n) = (BReg n, None, dsz (mod5 n m) 2).
Proof. intros [->|[->|[->| ->]]] [->|[->| ->]]; reflexivity. Qed.
Lemma seg16 e n : n = 3 \/ n = 5 \/ n = 6 \/ n = 7 -> same_seg e (cpu_seg (BReg n)) (default_seg (Some (R16 n))) /\ same_seg e (cpu_seg (BReg n)) (if stack_reg (R16 n) then 2 else 3).
Proof. intros [->|[->|[->| ->]]]; split; left; reflexivity. Qed.
Lemma fix16 e o : asize e o = 16 -> e_ofs e <> USE64 -> forall t, source_fix e o = Some t -> fixwidth t = 2%nat.
Proof.
  intros Has N t. unfold source_fix. destruct (o_sym o); [|discriminate]. intros [= <-]. rewrite Has. unfold rip_relative. destruct (e_ofs e); try reflexivity. congruence.
Qed.

Lemma base16 e o n : operand_ok e o -> o_base o = Some (R16 n) -> o_index o = None -> outcome e o.
Proof.
  intros K Hb Hx. pose proof (ok_base e o K _ Hb) as A.
  destruct (r16_facts _ _ A) as (Hn & A1 & N64).
  assert (Has : asize e o = 16) by (unfold asize; rewrite Hb; reflexivity).
  assert (Hi : o_base o <> None \/ o_index o <> None) by (left; congruence).
  set (a := reg_adrsiz (e_ofs e) (R16 n)) in *.
  assert (Hbr : (breg o =? 16) = false) by (unfold breg; rewrite Hb; cbn [regno]; apply Z.eqb_neq; lia).
  left.
  assert (Nv : ~ (hv_bad (o_disp o) = true /\ e_ofs e = USE64 /\ (o_base o <> None \/ o_index o <> None))) by tauto.
  destruct (seg_override e (ci_with cinfo0 o a (fx_of e o a)) (Some (R16 n)) (symb o) false) as [ov a'] eqn:Es.
  destruct (seg16 e n Hn) as [S1 S2].
  assert (Hss : source_seg e o = match o_over o with Some s => s | None => match o_sym o, e_chk e with Some _, Some s => s | _, _ => if stack_reg (R16 n) then 2 else 3 end end) by (unfold source_seg; rewrite Hb, Hx; reflexivity).
  destruct (seg_good e o (ci_with cinfo0 o a (fx_of e o a)) _ _ _ _ _ _ K eq_refl Es S1 S2 Hss) as (G1 & G2 & G3). cbn [c_adrsiz ci_with] in G3.
  assert (Ha' : a' = a) by (rewrite G3; destruct (o_over o), (o_sym o); reflexivity). clear G3.
  set (fx := fx_of e o a) in *.
  assert (Hfx : fx = source_fix e o) by (apply fix_reg; auto; congruence).
  set (md := mod5 n (mod0 fx (o_disp o))).
  exists md, (rm16 n), 0, 0, ov, a', fx, (BReg n), None, (dsz md 2).
  split; [|split].
  - constructor; auto; try lia; try congruence.
    + apply mod5_ok, mod0_ok.
    + unfold rm16. destruct Hn as [->|[->|[->| ->]]]; cbn; lia.
    + rewrite Hbr, andb_true_r, Ha', Has. exact A1.
    + intros E1 _ R4. pose proof (ok_si e o K E1) as H6. rewrite Hb in H6. destruct Hn as [->|[->|[->| ->]]]; try discriminate. exact (H6 eq_refl Hx).
    + rewrite Has. unfold shape. rewrite Z.eqb_refl. apply shape16_base; [exact Hn|apply mod0_ok].
    + destruct fx as [t|] eqn:Ef.
      * unfold md. rewrite (dsz_fix 2 _ _ _ t) by reflexivity. symmetry. apply (fix16 e o); auto.
      * intros _. apply dsz_fit; auto. rewrite Has. lia.
    + intros rf ip d. apply written_sum; [apply rip_rel_base; exact Hi| |].
      * rewrite Hb, Has. cbn [regval]. rewrite mod_mod_same. reflexivity.
      * rewrite Hx. reflexivity.
  - unfold encodable. rewrite Hb, Hx. split; [congruence|tauto].
  - intros ci opnd2 Hc. rewrite pa_mem by exact Nv. rewrite (mem_base e o _ ci opnd2 K Hc Hb Hx). cbv zeta. fold a. fold (fx_of e o a). fold fx.
    apply srs_base16; auto.
Qed.

Lemma scale16 e n sc : areg (e_ofs e) (R16 n) -> scale_bits e (reg_adrsiz (e_ofs e) (R16 n)) sc = if sc =? 0 then Ok 0 else Err.
Proof. intros (_ & N). unfold scale_bits. destruct (e_ofs e); [reflexivity|reflexivity|congruence]. Qed.
Lemma index16 e o n : operand_ok e o -> o_base o = None -> o_index o = Some (R16 n) -> outcome e o.
Proof.
  intros K Hb Hx. pose proof (ok_index e o K _ Hx) as A. destruct (r16_facts _ _ A) as (Hn & A1 & N64). right. split.
  - unfold encodable. rewrite Hb, Hx. cbn. lia.
  - intros ci opnd2 Hc. rewrite pa_mem by tauto. rewrite (mem_index e o _ ci opnd2 K Hc Hx). cbv zeta. rewrite (scale16 e n _ A).
    assert (X : o_scale o =? 0 = false) by (apply Z.eqb_neq, (ok_scale e o K Hb); congruence). rewrite X. clear X. destruct (regno (R16 n) =? 4); reflexivity.
Qed.
(** the base register of a pair, and its code *)
Definition rmpair (b x : Z) : Z := (if b =? 3 then 0 else 2) + (if x =? 6 then 0 else 1).
Lemma srs_pair16 e ci o a fx opnd2 ss n m ov a' bb ii : (n = 3 \/ n = 5 \/ n = 6 \/ n = 7) -> (bb = 3 \/ bb = 5) -> (ii = 6 \/ ii = 7) -> (n = bb /\ m = ii) \/ (n = ii /\ m = bb) ->
  seg_override e (ci_with ci o a fx) (Some (R16 bb)) (symb o) false = (ov, a') ->
  set_rm_sib e (ci_with ci o a fx) opnd2 ss (o_disp o) (Some (R16 m)) (Some (R16 n)) (symb o) =
  Ok (fin ci opnd2 (mod0 fx (o_disp o)) (rmpair bb ii) 0 0 ov a' fx (breg o)).
Proof.
  intros Hn Hb Hi Hs E.
  destruct Hb as [-> | ->], Hi as [-> | ->], Hs as [[-> ->]|[-> ->]]; unfold set_rm_sib; cbn [comp_mem16 bindr]; rewrite E; cbn [c_fix ci_with c_sib c_rm c_rex c_basereg sizmsk];
    change (Z.land 2 2 =? 0) with false; cbn iota; rewrite !orb_false_r; fold (mod0 fx (o_disp o)); destruct opnd2; reflexivity.
Qed.
Lemma shape16_pair bb ii m : (bb = 3 \/ bb = 5) -> (ii = 6 \/ ii = 7) -> okmod m -> shape16 (m / 64) (rmpair bb ii) = (BReg bb, Some (ii, 1), dsz m 2).
Proof. intros [-> | ->] [-> | ->] [->|[->| ->]]; reflexivity. Qed.
Lemma mod5_no m : mod5 0 m = m. Proof. reflexivity. Qed.

Lemma pair16_ok e o n m : operand_ok e o -> o_base o = Some (R16 n) -> o_index o = Some (R16 m) -> outcome e o.
Proof.
  intros K Hb Hx. pose proof (ok_base e o K _ Hb) as A. pose proof (ok_index e o K _ Hx) as Ax.
  destruct (r16_facts _ _ A) as (Hn & A1 & N64). destruct (r16_facts _ _ Ax) as (Hm & B1 & _).
  assert (Hnv : ~ (hv_bad (o_disp o) = true /\ e_ofs e = USE64 /\ (o_base o <> None \/ o_index o <> None))) by tauto.
  assert (Hen : encodable e o <-> (pair16 (R16 n) (R16 m) /\ o_scale o = 0)) by (unfold encodable; rewrite Hb, Hx; cbn [regbits]; intuition lia).
  assert (Hpa : forall ci opnd2, nocode ci -> process_address e ci opnd2 o =
     if o_scale o =? 0 then set_rm_sib e (ci_with ci o (reg_adrsiz (e_ofs e) (R16 m)) (fx_of e o (reg_adrsiz (e_ofs e) (R16 m)))) opnd2 0 (o_disp o) (Some (R16 m)) (Some (R16 n)) (symb o) else Err).
  { intros ci opnd2 Hc. rewrite pa_mem by exact Hnv. rewrite (mem_index e o _ ci opnd2 K Hc Hx). cbv zeta. rewrite (scale16 e m _ Ax), Hb. cbn [regno].
    assert (X : m =? 4 = false) by (apply Z.eqb_neq; lia). rewrite X. destruct (o_scale o =? 0); reflexivity. }
  destruct (Z.eqb_spec (o_scale o) 0) as [Z0|Z0]; [|right; split; [tauto|]; exact Hpa].
  assert (C : (exists bb ii, (bb = 3 \/ bb = 5) /\ (ii = 6 \/ ii = 7) /\ ((n = bb /\ m = ii) \/ (n = ii /\ m = bb))) \/ ((n = 3 \/ n = 5) /\ (m = 3 \/ m = 5)) \/ ((n = 6 \/ n = 7) /\ (m = 6 \/ m = 7))).
  { clear -Hn Hm. assert (H : ((n = 3 \/ n = 5) \/ (n = 6 \/ n = 7)) /\ ((m = 3 \/ m = 5) \/ (m = 6 \/ m = 7))) by tauto.
    destruct H as [[H|H] [H'|H']]; [tauto|left; exists n, m; tauto|left; exists m, n; tauto|tauto]. }
  destruct C as [(bb & ii & Hbb & Hii & Hsw)|C].
  2:{ right. split.
      - rewrite Hen. intros [P _]. cbn [pair16] in P. lia.
      - intros ci opnd2 Hc. rewrite (Hpa ci opnd2 Hc). destruct C as [[[-> | ->] [-> | ->]]|[[-> | ->] [-> | ->]]]; reflexivity. }
  left.
  assert (Has : asize e o = 16) by (unfold asize; rewrite Hb; reflexivity).
  assert (Hi : o_base o <> None \/ o_index o <> None) by (left; congruence).
  assert (Hra : reg_adrsiz (e_ofs e) (R16 m) = reg_adrsiz (e_ofs e) (R16 n)) by reflexivity. rewrite Hra in *. clear Hra.
  set (a := reg_adrsiz (e_ofs e) (R16 n)) in *.
  assert (Hbr : (breg o =? 16) = false) by (unfold breg; rewrite Hb; cbn [regno]; apply Z.eqb_neq; lia).
  destruct (seg_override e (ci_with cinfo0 o a (fx_of e o a)) (Some (R16 bb)) (symb o) false) as [ov a'] eqn:Es.
  destruct (seg16 e bb ltac:(tauto)) as [S1 S2].
  assert (Hss : source_seg e o = match o_over o with Some s => s | None => match o_sym o, e_chk e with Some _, Some s => s | _, _ => if stack_reg (R16 bb) then 2 else 3 end end).
  { unfold source_seg. rewrite Hb, Hx. destruct Hbb as [-> | ->], Hii as [-> | ->], Hsw as [[-> ->]|[-> ->]]; reflexivity. }
  destruct (seg_good e o (ci_with cinfo0 o a (fx_of e o a)) _ _ _ _ _ _ K eq_refl Es S1 S2 Hss) as (G1 & G2 & G3). cbn [c_adrsiz ci_with] in G3.
  assert (Ha' : a' = a) by (rewrite G3; destruct (o_over o), (o_sym o); reflexivity). clear G3.
  set (fx := fx_of e o a) in *.
  assert (Hfx : fx = source_fix e o) by (apply fix_reg; auto; congruence).
  set (md := mod0 fx (o_disp o)).
  exists md, (rmpair bb ii), 0, 0, ov, a', fx, (BReg bb), (Some (ii, 1)), (dsz md 2).
  split; [|split].
  - constructor; auto; try lia; try congruence.
    + apply mod0_ok.
    + unfold rmpair. destruct (bb =? 3), (ii =? 6); cbn; lia.
    + rewrite Hbr, andb_true_r, Ha', Has. exact A1.
    + intros _ _. unfold rmpair. destruct (bb =? 3), (ii =? 6); cbn; lia.
    + rewrite Has. unfold shape. rewrite Z.eqb_refl. apply shape16_pair; auto. apply mod0_ok.
    + destruct fx as [t|] eqn:Ef.
      * unfold md. rewrite <- (mod5_no (mod0 _ _)), (dsz_fix 2 _ _ _ t) by reflexivity. symmetry. apply (fix16 e o); auto.
      * intros _. unfold md. rewrite <- (mod5_no (mod0 _ _)). apply dsz_fit; auto. rewrite Has. lia.
    + intros rf ip d. unfold written. rewrite (rip_rel_base e o Hi), Hb, Hx, Z0, Has. change (0 =? 0) with true. cbn iota. rewrite Z.add_0_r, !Z.mul_1_l. cbn [regval].
      destruct Hsw as [[-> ->]|[-> ->]]; [|rewrite (Z.add_comm (rf bb))]; apply sum_mod; rewrite ?mod_mod_same; reflexivity.
  - rewrite Hen. split; [congruence|]. intros _. split; [|exact Z0]. cbn [pair16]. destruct Hsw as [[-> ->]|[-> ->]]; tauto.
  - intros ci opnd2 Hc. rewrite (Hpa ci opnd2 Hc). fold fx. apply srs_pair16; auto.
Qed.

(** ** RIP *)
Lemma base_rip e o : operand_ok e o -> o_base o = Some RIP -> outcome e o.
Proof.
  intros K Hb. destruct (ok_rip e o K Hb) as [Hx Hsy]. pose proof (ok_base e o K _ Hb) as E64. cbn [areg] in E64.
  assert (Has : asize e o = 64) by (unfold asize; rewrite Hb; reflexivity).
  assert (Hi : o_base o <> None \/ o_index o <> None) by (left; congruence).
  pose proof (ok_disp64 e o K Has Hi) as Fit. pose proof (hv_bad_spec _ (ok_disp e o K)) as Hv.
  assert (V : hv_bad (o_disp o) = false) by (destruct (hv_bad (o_disp o)); [lia|reflexivity]).
  left. destruct (seg_override e (ci_with cinfo0 o true None) (Some RIP) (symb o) false) as [ov a'] eqn:Es.
  assert (S1 : same_seg e (cpu_seg BIP) (default_seg (Some RIP))) by (left; reflexivity).
  assert (S2 : same_seg e (cpu_seg BIP) 3) by (left; reflexivity).
  assert (Hss : source_seg e o = match o_over o with Some s => s | None => match o_sym o, e_chk e with Some _, Some s => s | _, _ => 3 end end) by (unfold source_seg; rewrite Hb, Hx; reflexivity).
  destruct (seg_good e o (ci_with cinfo0 o true None) _ _ _ _ _ _ K eq_refl Es S1 S2 Hss) as (G1 & G2 & G3). cbn [c_adrsiz ci_with] in G3.
  assert (Ha' : a' = true) by (rewrite G3; destruct (o_over o), (o_sym o); reflexivity). clear G3.
  assert (Hbr : breg o = 16) by (unfold breg; rewrite Hb; reflexivity).
  exists 0, 5, 0, 0, ov, a', None, BIP, None, 4%nat. split; [|split].
  - constructor; auto; try lia; try congruence.
    + left; reflexivity.
    + rewrite Hbr, Ha', E64, Has. reflexivity.
    + rewrite Has, E64. reflexivity.
    + intros F. cbn [dispfit]. auto.
    + intros rf ip d. unfold written. rewrite (rip_rel_base e o Hi), Hb, Hx, Has. cbn [regval]. rewrite !Z.add_0_r. reflexivity.
    + unfold source_fix. rewrite Hsy. reflexivity.
  - unfold encodable. rewrite Hb, Hx. tauto.
  - intros ci opnd2 Hc. rewrite pa_mem by (intros (V1 & _); congruence). rewrite (mem_base e o _ ci opnd2 K Hc Hb Hx), E64, Hsy. cbv zeta. change (reg_adrsiz USE64 RIP) with true.
    unfold set_rm_sib. rewrite (Es : seg_override e (ci_with ci o true None) (Some RIP) (symb o) false = (ov, a')). cbn [c_fix ci_with c_sib c_rm c_rex c_basereg regno]. rewrite orb_true_r. destruct opnd2; reflexivity.
Qed.

(** ** no register *)
Lemma mem_direct e o ci opnd2 : nocode ci -> o_base o = None -> o_index o = None ->
  process_address e ci opnd2 o =
  let '(a, fx) := fix_of e false o in set_rm_sib e (ci_with ci o a fx) opnd2 0 (o_disp o) None None (symb o).
Proof.
  intros (N1 & N2 & N3) Hb Hx. rewrite pa_mem by (rewrite Hb, Hx; intuition congruence). unfold memory_operand. rewrite Hb, Hx, N2. cbn [c_adrsiz c_rm c_rex c_sib c_over c_basereg c_fix bindr].
  destruct (fix_of e false o) as [a fx]. unfold ci_with, breg, symb. rewrite Hb, N1, N3. reflexivity.
Qed.
Lemma asz16_addr16 e a : addr16 (e_ofs e) a = (addrbits (e_ofs e) a =? 16). Proof. destruct (e_ofs e), a; reflexivity. Qed.
Lemma direct_ok e o : operand_ok e o -> o_base o = None -> o_index o = None -> outcome e o.
Proof.
  intros K Hb Hx.
  assert (Hbr : breg o =? 16 = false) by (unfold breg; rewrite Hb; reflexivity).
  destruct (fix_of e false o) as [a fx] eqn:Ef.
  destruct (seg_override e (ci_with cinfo0 o a fx) None (symb o) true) as [ov a'] eqn:Es.
  assert (Hss : source_seg e o = match o_over o with Some s => s | None => match o_sym o, e_chk e with Some _, Some s => s | _, _ => 3 end end) by (unfold source_seg; rewrite Hb; reflexivity).
  destruct (seg_good e o (ci_with cinfo0 o a fx) _ _ 3 _ _ _ K eq_refl Es (or_introl eq_refl) (or_introl eq_refl) Hss) as (G1 & G2 & G3). cbn [c_adrsiz ci_with] in G3.
  assert (Ha' : a' = addrsize (e_ofs e) (match o_sym o with Some s => s | None => e_dofs e end)).
  { rewrite G3. unfold fix_of in Ef. rewrite Hb, Hx in Ef. pose proof (ok_direct e o K Hb Hx) as D.
    destruct (o_sym o) as [s|] eqn:Hsy; apply pair_equal_spec in Ef as [<- <-]; [destruct (o_over o); reflexivity|]. destruct (o_over o); [reflexivity|]. destruct D; congruence. }
  clear G3.
  assert (Has : asize e o = addrbits (e_ofs e) a').
  { unfold asize. rewrite Hb, Hx, Ha'. unfold addrsize. destruct (o_sym o) as [s|] eqn:Hsy.
    - destruct (ok_sym e o K s Hsy) as [K1 K2]. destruct s, (e_ofs e); try reflexivity; try (specialize (K1 eq_refl); discriminate); exfalso; exact (K2 eq_refl eq_refl).
    - destruct (ok_dofs e o K) as [K1 K2]. destruct (e_dofs e), (e_ofs e); try reflexivity; try (specialize (K1 eq_refl); discriminate); exfalso; exact (K2 eq_refl eq_refl). }
  assert (Hseg : forall b, b = BNone \/ b = BIP -> same_seg e (match ov with Some s => s | None => cpu_seg b end) (source_seg e o)) by (intros b [-> | ->]; exact G2).
  assert (Hpa : forall ci opnd2, nocode ci -> process_address e ci opnd2 o = set_rm_sib e (ci_with ci o a fx) opnd2 0 (o_disp o) None None (symb o)) by (intros ci opnd2 Hc; rewrite mem_direct by auto; rewrite Ef; reflexivity).
  assert (Es' : forall ci, seg_override e (ci_with ci o a fx) None (symb o) true = (ov, a')) by (intros; exact Es).
  assert (Hfx : fx = match o_sym o with None => None | Some USE64 => Some (if (match o_over o with Some _ => true | None => false end) && negb (e_flat e) then FIX_OFF32 else FIX_RELOFF32) | Some USE32 => Some FIX_OFF32 | Some USE16 => Some FIX_OFF16 end).
  { unfold fix_of in Ef. rewrite Hb, Hx in Ef. destruct (o_sym o) as [[]|]; apply pair_equal_spec in Ef as [_ <-]; reflexivity. }
  unfold outcome, encodable. rewrite Hb, Hx, Has.
  assert (A16 := asz16_addr16 e a').
  destruct (addrbits (e_ofs e) a' =? 16) eqn:H16.
  - (* 16-bit *)
    apply Z.eqb_eq in H16. assert (N64 : e_ofs e <> USE64) by (intros X; rewrite X in H16; destruct a'; discriminate).
    destruct ((sex32 (o_disp o) >? 65535) || (sex32 (o_disp o) <? -65535)) eqn:Q.
    + right. split.
      * intros [_ F]. unfold sex32 in Q. rewrite Z.gtb_ltb in Q. apply orb_prop in Q as [Q|Q]; apply Z.ltb_lt in Q; lia.
      * intros ci opnd2 Hc. rewrite Hpa by exact Hc. unfold set_rm_sib. rewrite Es', A16, Q. reflexivity.
    + left. exists 0, 6, 0, 0, ov, a', fx, BNone, None, 2%nat. split; [|split].
      * constructor; auto; try lia; try congruence; try (unfold okmod; tauto); rewrite ?Has, ?H16.
        -- rewrite Hbr, andb_true_r. exact H16.
        -- reflexivity.
        -- destruct fx as [t|] eqn:Et; [|intros _; reflexivity]. clear -Has H16 Hfx Hb Hx. unfold asize in Has. rewrite Hb, Hx, H16 in Has. destruct (o_sym o) as [[]|]; try discriminate. injection Hfx as ->. reflexivity.
        -- intros rf ip d. unfold written. rewrite Has, H16, Hb, Hx. replace (rip_relative e o) with false; [rewrite !Z.add_0_l; reflexivity|]. unfold rip_relative. destruct (e_ofs e); try reflexivity. congruence.
        -- rewrite Hfx. unfold source_fix. assert (R : rip_relative e o = false) by (unfold rip_relative; destruct (e_ofs e); try reflexivity; congruence). rewrite R, Has, H16.
           unfold asize in Has. rewrite Hb, Hx, H16 in Has. destruct (o_sym o) as [[]|]; try discriminate; reflexivity.
      * split; [congruence|]. intros _. split; [exact I|]. unfold sex32 in Q. rewrite Z.gtb_ltb in Q. apply orb_false_elim in Q as [Q1 Q2]. apply Z.ltb_ge in Q1, Q2. lia.
      * intros ci opnd2 Hc. rewrite Hpa by exact Hc. unfold set_rm_sib. rewrite Es', A16, Q. cbn [c_fix ci_with c_sib c_rm c_rex c_basereg]. destruct opnd2; reflexivity.
  - left. apply Z.eqb_neq in H16.
    assert (Fit : addrbits (e_ofs e) a' = 64 -> e_ofs e = USE64) by (destruct (e_ofs e), a'; cbn; intros; try reflexivity; lia).
    destruct (ofs_eqb (e_ofs e) USE64 && (match o_sym o with None => true | Some _ => false end)) eqn:Q.
    + (* absolute, 64-bit code *)
      apply andb_prop in Q as [Q1 Q2]. assert (E64 : e_ofs e = USE64) by (destruct (e_ofs e); [discriminate|discriminate|reflexivity]). destruct (o_sym o) eqn:Hsy; [discriminate|]. subst fx.
      exists 0, 4, 0, 0x25, ov, a', None, BNone, None, 4%nat. split; [|split].
      * constructor; auto; try lia; try congruence; try (unfold okmod; tauto); rewrite ?Has, ?H16.
        -- rewrite Hbr, andb_true_r. reflexivity.
        -- rewrite E64. destruct a'; reflexivity.
        -- intros F. cbn [dispfit]. auto.
        -- intros rf ip d. unfold written. rewrite Has, Hb, Hx. unfold rip_relative. rewrite Hsy, Hb, Hx, E64. rewrite !Z.add_0_l. reflexivity.
        -- unfold source_fix. rewrite Hsy. reflexivity.
      * split; [tauto|]. intros F. split; [exact I|]. intros _. apply F; auto.
      * intros ci opnd2 Hc. rewrite Hpa by exact Hc. unfold set_rm_sib. rewrite Es', A16, E64. cbn [c_fix ci_with c_sib c_rm c_rex c_basereg]. destruct opnd2; reflexivity.
    + set (fx' := match e_ofs e, fx with USE64, Some FIX_OFF32 => Some FIX_RELOFF32 | _, f => f end).
      assert (Hfx' : fx' = source_fix e o).
      { unfold fx', source_fix, rip_relative. rewrite Hfx, Hb, Hx, Has. apply Z.eqb_neq in H16. destruct (o_sym o) as [s|] eqn:Hsy; [|destruct (e_ofs e); [reflexivity|reflexivity|discriminate]].
        rewrite H16. unfold asize in Has. rewrite Hb, Hx, Hsy in Has. destruct (ok_sym e o K s Hsy) as [K1 K2].
        destruct s; [exfalso; cbn [bits] in Has; apply Z.eqb_neq in H16; congruence| |].
        - destruct (e_ofs e); reflexivity.
        - rewrite (K1 eq_refl). destruct ((match o_over o with Some _ => true | None => false end) && negb (e_flat e)); reflexivity. }
      exists 0, 5, 0, 0, ov, a', fx', (match e_ofs e with USE64 => BIP | _ => BNone end), None, 4%nat. split; [|split].
      * constructor; auto; try lia; try congruence; try (unfold okmod; tauto); rewrite ?Has.
        -- rewrite Hbr, andb_true_r. reflexivity.
        -- unfold shape, has_sib. apply Z.eqb_neq in H16. rewrite H16. destruct (e_ofs e); reflexivity.
        -- destruct fx' as [t|] eqn:Et.
           ++ unfold source_fix in Hfx'. destruct (o_sym o); [|discriminate]. injection Hfx' as ->. rewrite Has. apply Z.eqb_neq in H16. rewrite H16. destruct (rip_relative e o); reflexivity.
           ++ intros F. cbn [dispfit]. auto.
        -- intros rf ip d. unfold written. rewrite Has, Hb, Hx. unfold rip_relative. rewrite Hb, Hx. destruct (o_sym o) eqn:Hsy.
           ++ destruct (e_ofs e); rewrite ?Z.add_0_l, ?Z.add_0_r; reflexivity.
           ++ destruct (e_ofs e); [| |discriminate]; rewrite ?Z.add_0_l; reflexivity.
        -- apply Hseg. destruct (e_ofs e); tauto.
      * split; [tauto|]. intros F. split; [exact I|]. intros E. apply F; auto.
      * intros ci opnd2 Hc. rewrite Hpa by exact Hc. unfold set_rm_sib. rewrite Es', A16. cbn [c_fix ci_with c_sib c_rm c_rex c_basereg]. unfold fx'.
        assert (Fn : e_ofs e = USE64 -> fx <> None) by (intros E; rewrite E in Q; rewrite Hfx; destruct (o_sym o) as [[]|]; cbn; try discriminate).
        destruct (e_ofs e); [destruct opnd2; reflexivity|destruct opnd2; reflexivity|].
        destruct fx as [[]|]; [destruct opnd2; reflexivity|destruct opnd2; reflexivity|destruct opnd2; reflexivity|]. exfalso. apply Fn; reflexivity.
Qed.

Lemma outcome_all e o : operand_ok e o -> outcome e o.
Proof.
  intros K. destruct (o_base o) as [b|] eqn:Hb, (o_index o) as [x|] eqn:Hx.
  - pose proof (ok_base e o K b Hb) as A. pose proof (ok_index e o K x Hx) as Ax. pose proof (ok_ripx e o K) as R.
    destruct b as [n|n|n|n|]; [contradiction| | | |eapply base_rip; eauto]; destruct x as [m|m|m|m|]; try contradiction; try congruence.
    all: first [eapply pair16_ok; eassumption | eapply pair_wide; [eassumption|eassumption|eassumption|tauto] | eapply pair_mixed; [eassumption|eassumption|eassumption|reflexivity]].
  - pose proof (ok_base e o K b Hb) as A.
    destruct b as [n|n|n|n|]; [contradiction|eapply base16; eauto|eapply base_wide; eauto|eapply base_wide; eauto|eapply base_rip; eauto].
  - pose proof (ok_index e o K x Hx) as A. pose proof (ok_ripx e o K) as R.
    destruct x as [n|n|n|n|]; [contradiction|eapply index16; eauto|eapply index_wide; eauto|eapply index_wide; eauto|congruence].
  - apply direct_ok; auto.
Qed.

(** ** the instruction *)
Lemma disp_size_good e o f modf rm rex sib ov adrsiz fx b x n : operand_ok e o -> form_ok (e_ofs e) f -> good e o modf rm rex sib ov adrsiz fx b x n ->
  let ci := final f modf rm rex sib ov adrsiz fx (breg o) in
  ((n = 4%nat -> modf = 0 -> e_ofs e = USE64 -> fits32 (o_disp o)) -> disp_size e ci (o_disp o) = Ok n) /\
  (~ (n = 4%nat -> modf = 0 -> e_ofs e = USE64 -> fits32 (o_disp o)) -> disp_size e ci (o_disp o) = Err).
Proof.
  intros K F G ci. destruct (final_spec _ _ modf rm rex sib ov adrsiz fx (breg o) F (g_mod _ _ _ _ _ _ _ _ _ _ _ _ G) (g_rm _ _ _ _ _ _ _ _ _ _ _ _ G) (g_rex _ _ _ _ _ _ _ _ _ _ _ _ G)) as (_ & P1 & P2 & _ & _ & _ & P3 & _ & P4 & _).
  fold ci in P1, P2, P3, P4. unfold disp_size. rewrite P1, P2, P3, P4.
  pose proof (g_shape _ _ _ _ _ _ _ _ _ _ _ _ G) as Sh. unfold shape in Sh.
  assert (A16 : addr16 (e_ofs e) adrsiz = (asize e o =? 16)).
  { rewrite <- (g_asz _ _ _ _ _ _ _ _ _ _ _ _ G), asz16_addr16. destruct (breg o =? 16) eqn:X; [|rewrite andb_true_r; reflexivity].
    apply Z.eqb_eq in X. rewrite (g_br64 _ _ _ _ _ _ _ _ _ _ _ _ G X). destruct adrsiz; reflexivity. }
  rewrite A16. pose proof (g_rm _ _ _ _ _ _ _ _ _ _ _ _ G) as R. pose proof (g_mod _ _ _ _ _ _ _ _ _ _ _ _ G) as M.
  pose proof (ok_disp e o K) as D.
  assert (U : ofs_eqb (e_ofs e) USE64 && (0x80000000 <=? wrap 64 (o_disp o)) && (wrap 64 (o_disp o) <? 0xffffffff80000000) = true <-> ~ (e_ofs e = USE64 -> fits32 (o_disp o))).
  { assert (W : wrap 64 (o_disp o) = if o_disp o <? 0 then o_disp o + 2 ^ 64 else o_disp o).
    { unfold wrap. destruct (Z.ltb_spec (o_disp o) 0); [symmetry; apply Z.mod_unique with (-1); lia|apply Z.mod_small; lia]. }
    rewrite W. unfold fits32. destruct (ofs_eqb (e_ofs e) USE64) eqn:X; cbn [andb].
    - assert (E : e_ofs e = USE64) by (destruct (e_ofs e); [discriminate|discriminate|reflexivity]).
      assert (Eq : (e_ofs e = USE64 -> - 2 ^ 31 <= o_disp o < 2 ^ 31) <-> - 2 ^ 31 <= o_disp o < 2 ^ 31) by tauto. rewrite Eq. clear Eq E X.
      destruct (Z.ltb_spec (o_disp o) 0); rewrite andb_true_iff, Z.leb_le, Z.ltb_lt; lia.
    - split; [discriminate|]. intros H. exfalso. apply H. intros E. rewrite E in X. discriminate. }
  assert (E4 : Z.land sib 7 = sib mod 8) by (change 7 with (Z.ones 3); rewrite Z.land_ones by lia; reflexivity). rewrite E4.
  destruct M as [->|[->| ->]]; cbn [Z.eqb Pos.eqb] in *.
  - change (0 / 64) with 0 in Sh. destruct (asize e o =? 16) eqn:As.
    + assert (N4 : n = 2%nat /\ rm = 6 \/ n = 0%nat /\ rm <> 6).
      { unfold shape16 in Sh. change (0 =? 0) with true in Sh. cbn iota in Sh. assert (C : rm = 0 \/ rm = 1 \/ rm = 2 \/ rm = 3 \/ rm = 4 \/ rm = 5 \/ rm = 6 \/ rm = 7) by lia.
        destruct C as [->|[->|[->|[->|[->|[->|[->| ->]]]]]]]; cbn in Sh; apply pair_equal_spec in Sh as [_ <-]; first [left; split; reflexivity | right; split; [reflexivity|lia]]. }
      destruct N4 as [[-> ->]|[-> N]]; [split; [reflexivity|]|].
      * intros H. exfalso. apply H. discriminate.
      * apply Z.eqb_neq in N. rewrite N. split; [reflexivity|]. intros H. exfalso. apply H. discriminate.
    + assert (C : (if (rm =? 4) && (sib mod 8 =? 5) || (rm =? 5) then n = 4%nat else n = 0%nat)).
      { unfold shape32 in Sh. unfold has_sib in Sh. rewrite As in Sh. change (0 =? 0) with true in Sh. cbn [negb andb] in Sh. rewrite !andb_true_r in Sh.
        destruct (Z.eqb_spec rm 4) as [->|_]; cbn [andb orb].
        - change (4 =? 5) with false. rewrite orb_false_r. destruct (sib mod 8 =? 5); apply pair_equal_spec in Sh as [_ <-]; reflexivity.
        - destruct (rm =? 5); apply pair_equal_spec in Sh as [_ <-]; reflexivity. }
      destruct ((rm =? 4) && (sib mod 8 =? 5) || (rm =? 5)); subst n.
      * destruct (ofs_eqb (e_ofs e) USE64 && (0x80000000 <=? wrap 64 (o_disp o)) && (wrap 64 (o_disp o) <? 0xffffffff80000000)) eqn:Q; split; try reflexivity; intros H; exfalso.
        -- apply (proj1 U eq_refl). auto.
        -- assert (~ ~ (e_ofs e = USE64 -> fits32 (o_disp o))) by (intros X; apply U in X; discriminate). tauto.
      * split; [reflexivity|]. intros H. exfalso. apply H. discriminate.
  - assert (n = 1%nat). { change (64 / 64) with 1 in Sh. unfold shape16, shape32 in Sh. change (1 =? 0) with false in Sh. change (1 =? 1) with true in Sh. cbn iota in Sh. rewrite !andb_false_r in Sh.
      repeat (match type of Sh with context [if ?c then _ else _] => destruct c end); apply pair_equal_spec in Sh as [_ <-]; reflexivity. }
    subst n. split; [reflexivity|]. intros H. exfalso. apply H. discriminate.
  - assert (n = if asize e o =? 16 then 2%nat else 4%nat). { change (128 / 64) with 2 in Sh. unfold shape16, shape32 in Sh. change (2 =? 0) with false in Sh. change (2 =? 1) with false in Sh. cbn iota in Sh. rewrite !andb_false_r in Sh.
      repeat (match type of Sh with context [if ?c then _ else _] => destruct c end); apply pair_equal_spec in Sh as [_ <-]; reflexivity. }
    split; [subst n; reflexivity|]. intros Hq. exfalso. apply Hq. intros _ ?. discriminate.
Qed.

Lemma assemble_eq e f opsiz opcode o modf rm rex sib ov adrsiz fx :
  (forall ci opnd2, nocode ci -> process_address e ci opnd2 o = Ok (fin ci opnd2 modf rm rex sib ov adrsiz fx (breg o))) ->
  assemble e f opsiz opcode o =
  let ci := final f modf rm rex sib ov adrsiz fx (breg o) in
  bindr (rex_prefix e ci) (fun rexl => bindr (disp_size e ci (o_disp o)) (fun n =>
  let front := prefixes e opsiz ci ++ rexl ++ opcode ++ modrm_sib e (match o_base o with Some RIP => true | _ => false end) (insrm f) ci in
  Ok {| k_bytes := front ++ le_bytes n (o_disp o);
        k_fix := match n with O => None | _ => match c_fix ci with Some t => Some (t, zlen front) | None => None end end |})).
Proof.
  intros H. unfold assemble. destruct f as [d w|r|r].
  - rewrite H by (repeat split). reflexivity.
  - rewrite H by (repeat split). reflexivity.
  - rewrite H by (destruct r; repeat split). reflexivity.
Qed.
Lemma assemble_err e f opsiz opcode o : (forall ci opnd2, nocode ci -> process_address e ci opnd2 o = Err) -> assemble e f opsiz opcode o = Err.
Proof.
  intros H. unfold assemble. destruct f as [d w|r|r]; rewrite H; try reflexivity; try (repeat split). all: destruct r; repeat split.
Qed.

Lemma rex_ok e o f modf rm rex sib ov adrsiz fx b x n : form_ok (e_ofs e) f -> good e o modf rm rex sib ov adrsiz fx b x n ->
  let ci := final f modf rm rex sib ov adrsiz fx (breg o) in
  exists rexl rexv, rex_prefix e ci = Ok rexl /\ ((rexl = [] /\ rexv = 0) \/ (rexl = [0x40 + rexv] /\ 0 <= rexv < 16 /\ e_ofs e = USE64)) /\
    rexv = (if form_w f then 8 else 0) + 4 * (form_field f / 8) + rex.
Proof.
  intros F G ci. destruct (final_spec _ _ modf rm rex sib ov adrsiz fx (breg o) F (g_mod _ _ _ _ _ _ _ _ _ _ _ _ G) (g_rm _ _ _ _ _ _ _ _ _ _ _ _ G) (g_rex _ _ _ _ _ _ _ _ _ _ _ _ G)) as (_ & _ & _ & _ & _ & P & _).
  fold ci in P. unfold rex_prefix. pose proof (g_rex _ _ _ _ _ _ _ _ _ _ _ _ G) as R.
  assert (D : 0 <= form_field f < 16) by (destruct f; cbn [form_ok form_field] in *; lia).
  destruct (c_rex ci =? 0).
  - destruct P as (-> & D8 & ->). exists [], 0. split; [reflexivity|]. split; [left; auto|]. rewrite Z.div_small by lia. reflexivity.
  - destruct P as [E H]. assert (E64 : e_ofs e = USE64) by (destruct H as [H|H]; [exact (g_rex64 _ _ _ _ _ _ _ _ _ _ _ _ G H)|exact H]).
    assert (X64 : ofs_eqb (e_ofs e) USE64 = true) by (rewrite E64; reflexivity). rewrite X64, E.
    exists [0x40 + ((if form_w f then 8 else 0) + 4 * (form_field f / 8) + rex)], ((if form_w f then 8 else 0) + 4 * (form_field f / 8) + rex).
    assert (form_field f / 8 = 0 \/ form_field f / 8 = 1) by (assert (0 <= form_field f / 8 < 2) by (split; [apply Z.div_pos; lia|apply Z.div_lt_upper_bound; lia]); lia).
    split; [f_equal; f_equal; lia|]. split; [|reflexivity]. right. split; [reflexivity|]. split; [destruct (form_w f); lia|exact E64].
Qed.
Lemma shape_rex mode asz md rm rex r sib : 0 <= rex < 4 -> shape mode asz md rm (4 * r + rex) sib = shape mode asz md rm rex sib.
Proof.
  intros H. unfold shape. destruct (asz =? 16); [reflexivity|].
  assert (E1 : (4 * r + rex) mod 2 = rex mod 2) by (replace (4 * r + rex) with (rex + (2 * r) * 2) by lia; apply Z.mod_add; lia).
  assert (E2 : ((4 * r + rex) / 2) mod 2 = (rex / 2) mod 2).
  { replace (4 * r + rex) with (rex + (2 * r) * 2) by lia. rewrite Z.div_add by lia. rewrite Z.mul_comm. apply Z.mod_add. lia. }
  rewrite E1, E2. reflexivity.
Qed.

(** the code that is written, and its decoding *)
Lemma assemble_decode e f opsiz opcode o k : operand_ok e o -> form_ok (e_ofs e) f -> opcode_ok (e_ofs e) opcode ->
  assemble e f opsiz opcode o = Ok k -> forall v l rest, linked (e_ofs e) k (o_disp o) v l ->
  exists a, decode (e_ofs e) opcode (l ++ rest) = Some (form_field f, form_w f, a, rest) /\
    a_size a = asize e o /\ (forall rf ip, addr rf ip a = written e o v rf ip) /\ same_seg e (a_seg a) (source_seg e o) /\ option_map fst (k_fix k) = source_fix e o.
Proof.
  intros K F Op E v l rest L.
  destruct (outcome_all e o K) as [(modf & rm & rex & sib & ov & adrsiz & fx & b & x & n & G & En & P)|[_ P]]; [|rewrite (assemble_err _ _ _ _ _ P) in E; discriminate].
  rewrite (assemble_eq _ _ _ _ _ _ _ _ _ _ _ _ P) in E. cbv zeta in E.
  set (ci := final f modf rm rex sib ov adrsiz fx (breg o)) in *.
  destruct (rex_ok e o f modf rm rex sib ov adrsiz fx b x n F G) as (rexl & rexv & R1 & R2 & R3). fold ci in R1. rewrite R1 in E. cbn [bindr] in E.
  destruct (disp_size_good e o f modf rm rex sib ov adrsiz fx b x n K F G) as [D1 D2]. fold ci in D1, D2.
  assert (Dec : (n = 4%nat -> modf = 0 -> e_ofs e = USE64 -> fits32 (o_disp o)) \/ ~ (n = 4%nat -> modf = 0 -> e_ofs e = USE64 -> fits32 (o_disp o))).
  { unfold fits32. destruct (Nat.eq_dec n 4); [|left; congruence]. destruct (Z.eq_dec modf 0); [|left; congruence]. destruct (e_ofs e); [left; congruence|left; congruence|].
    destruct (Z_le_dec (- 2 ^ 31) (o_disp o)); [|right; intros X; specialize (X ltac:(auto) ltac:(auto) eq_refl); lia]. destruct (Z_lt_dec (o_disp o) (2 ^ 31)); [left; auto|right; intros X; specialize (X ltac:(auto) ltac:(auto) eq_refl); lia]. }
  destruct Dec as [Dk|Dk]; [|rewrite (D2 Dk) in E; discriminate]. rewrite (D1 Dk) in E. cbn [bindr] in E.
  destruct (final_spec _ _ modf rm rex sib ov adrsiz fx (breg o) F (g_mod _ _ _ _ _ _ _ _ _ _ _ _ G) (g_rm _ _ _ _ _ _ _ _ _ _ _ _ G) (g_rex _ _ _ _ _ _ _ _ _ _ _ _ G)) as (M1 & _ & _ & M4 & M5 & _ & M7 & M8 & M9 & M10 & M11).
  fold ci in M1, M4, M5, M7, M8, M9, M10, M11.
  pose proof (g_mod _ _ _ _ _ _ _ _ _ _ _ _ G) as Gm. pose proof (g_rm _ _ _ _ _ _ _ _ _ _ _ _ G) as Gr. pose proof (g_rex _ _ _ _ _ _ _ _ _ _ _ _ G) as Gx. pose proof (g_asz _ _ _ _ _ _ _ _ _ _ _ _ G) as Ga.
  assert (D : 0 <= form_field f < 16) by (destruct f; cbn [form_ok form_field] in *; lia).
  set (p67 := adrsiz && negb (breg o =? 16)) in *.
  assert (Hp : prefixes e opsiz ci = pfx p67 opsiz ov) by (unfold prefixes, pfx; rewrite M8, M9, M11; reflexivity).
  set (sibl := if has_sib (asize e o) (modf / 64) rm then [sib] else []).
  assert (Hm : modrm_sib e (match o_base o with Some RIP => true | _ => false end) (insrm f) ci = (modf + 8 * (form_field f mod 8) + rm) :: sibl).
  { unfold modrm_sib. rewrite M7, M9.
    assert (Em : (if match o_base o with Some RIP => true | _ => false end then Z.land (Z.lor (insrm f) (c_rm ci)) 127 else Z.lor (insrm f) (c_rm ci)) = modf + 8 * (form_field f mod 8) + rm).
    { destruct (o_base o) as [[]|] eqn:Hb; try exact M1. rewrite M4. f_equal. f_equal. rewrite (g_br _ _ _ _ _ _ _ _ _ _ _ _ G Hb). reflexivity. }
    rewrite Em. f_equal. rewrite M1 in M5. rewrite M5. unfold sibl, has_sib.
    assert (T : (modf + rm =? 4) || (modf + rm =? 0x44) || (modf + rm =? 0x84) = (rm =? 4)).
    { destruct Gm as [->|[->| ->]]; destruct (Z.eqb_spec rm 4) as [->|]; try reflexivity; repeat rewrite (proj2 (Z.eqb_neq _ _)) by lia; reflexivity. }
    rewrite T. pose proof (g_sib _ _ _ _ _ _ _ _ _ _ _ _ G) as Gs. pose proof (g_br64 _ _ _ _ _ _ _ _ _ _ _ _ G) as Gb. rewrite <- Ga. unfold p67.
    destruct (e_ofs e) eqn:Eo; cbn [ofs_eqb andb].
    - assert (Hb : breg o =? 16 = false) by (apply Z.eqb_neq; intros X; specialize (Gb X); discriminate). rewrite Hb, andb_true_r. destruct adrsiz; reflexivity.
    - assert (Hb : breg o =? 16 = false) by (apply Z.eqb_neq; intros X; specialize (Gb X); discriminate). rewrite Hb, andb_true_r. destruct adrsiz; [|reflexivity].
      specialize (Gs eq_refl eq_refl). apply Z.eqb_neq in Gs. rewrite Gs. reflexivity.
    - destruct adrsiz, (breg o =? 16); reflexivity. }
  rewrite Hp, Hm in E. match type of E with Ok ?z = Ok _ => assert (E' : z = k) by congruence end. clear E. rename E' into E.
  set (front := pfx p67 opsiz ov ++ rexl ++ opcode ++ (modf + 8 * (form_field f mod 8) + rm) :: sibl) in *.
  assert (Hl : exists dv, l = front ++ le_bytes n dv /\ dv = v /\ dispfit (asize e o) n dv /\ option_map fst (k_fix k) = source_fix e o).
  { exists v. unfold linked in L. rewrite <- (g_fix _ _ _ _ _ _ _ _ _ _ _ _ G). pose proof (g_disp _ _ _ _ _ _ _ _ _ _ _ _ G) as Gd. rewrite M10 in E. destruct fx as [t|] eqn:Et.
    - assert (Hk : k_fix k = Some (t, zlen front)) by (subst k; cbn [k_fix]; rewrite Gd; destruct t; reflexivity).
      rewrite Hk in L. destruct L as [-> Lf]. split; [|split; [reflexivity|split]].
      + replace (k_bytes k) with (front ++ le_bytes n (o_disp o)) by (subst k; reflexivity).
        unfold zlen. rewrite Nat2Z.id. rewrite firstn_app, firstn_all, Nat.sub_diag, firstn_O, app_nil_r.
        rewrite skipn_all2; [rewrite app_nil_r, Gd; reflexivity|]. rewrite app_length, le_bytes_length, Gd. lia.
      + assert (A64 : asize e o = 64 -> e_ofs e = USE64) by (rewrite <- Ga; destruct (e_ofs e), p67; cbn; intros; try reflexivity; lia).
        pose proof (g_fix _ _ _ _ _ _ _ _ _ _ _ _ G) as Gf. unfold source_fix in Gf. destruct (o_sym o); [|discriminate]. injection Gf as ->. rewrite Gd.
        destruct (rip_relative e o); [cbn; auto|]. destruct (Z.eqb_spec (asize e o) 16) as [X|X]; cbn; auto.
      + rewrite Hk. reflexivity.
    - assert (Hk : k_fix k = None) by (subst k; cbn [k_fix]; destruct n; reflexivity). rewrite Hk in L. destruct L as [-> ->].
      split; [subst k; reflexivity|]. split; [reflexivity|]. split; [apply Gd, Dk|rewrite Hk; reflexivity]. }
  destruct Hl as (dv & -> & -> & Fit & Hfix).
  unfold front. rewrite <- !app_assoc. cbn [app]. 
  rewrite decode_pfx with (rexv := rexv); [|exact Op|exact (g_ov _ _ _ _ _ _ _ _ _ _ _ _ G)|exact R2].
  rewrite <- ?app_assoc.
  assert (D8 : form_field f / 8 = 0 \/ form_field f / 8 = 1) by (assert (0 <= form_field f / 8 < 2) by (split; [apply Z.div_pos; lia|apply Z.div_lt_upper_bound; lia]); lia).
  rewrite (dec_modrm_eq _ p67 ov rexv modf (form_field f mod 8) rm sibl sib b x n); auto; rewrite ?Ga.
  - eexists. split.
    + f_equal. f_equal. f_equal. f_equal.
      * rewrite R3. assert (Q : ((if form_w f then 8 else 0) + 4 * (form_field f / 8) + rex) / 4 mod 2 = form_field f / 8).
        { destruct (form_w f); symmetry.
          - apply Z.mod_unique with 1; [lia|]. symmetry. apply Z.div_unique with rex; lia.
          - apply Z.mod_unique with 0; [lia|]. symmetry. apply Z.div_unique with rex; lia. }
        rewrite Q. pose proof (Z.div_mod (form_field f) 8 ltac:(lia)). lia.
      * rewrite R3. destruct (form_w f).
        -- apply Z.leb_le. lia.
        -- apply Z.leb_gt. lia.
    + cbn [a_size a_seg]. split; [reflexivity|]. split; [|split; [exact (g_seg _ _ _ _ _ _ _ _ _ _ _ _ G)|exact Hfix]].
      intros rf ip. unfold addr. cbn [a_size a_base a_index a_disp]. rewrite <- (g_addr _ _ _ _ _ _ _ _ _ _ _ _ G rf ip v).
      apply sum_mod; try reflexivity. apply disp_ok; [|exact Fit]. rewrite <- Ga. unfold asz_ok. destruct (e_ofs e), p67; cbn; tauto.
  - apply Z.mod_pos_bound. lia.
  - reflexivity.
  - rewrite R3. assert (Q : exists r, (if form_w f then 8 else 0) + 4 * (form_field f / 8) + rex = 4 * r + rex) by (exists ((if form_w f then 2 else 0) + form_field f / 8); destruct (form_w f); lia).
    destruct Q as [r ->]. rewrite shape_rex by exact Gx. exact (g_shape _ _ _ _ _ _ _ _ _ _ _ _ G).
  - apply le_bytes_length.
Qed.

Lemma assemble_accepts e f opsiz opcode o : operand_ok e o -> form_ok (e_ofs e) f -> ((exists k, assemble e f opsiz opcode o = Ok k) <-> encodable e o) /\ assemble e f opsiz opcode o <> UB.
Proof.
  intros K F.
  destruct (outcome_all e o K) as [(modf & rm & rex & sib & ov & adrsiz & fx & b & x & n & G & En & P)|[N P]].
  2:{ rewrite (assemble_err _ _ _ _ _ P). split; [|discriminate]. split; [intros [k Hk]; discriminate|contradiction]. }
  rewrite (assemble_eq _ _ _ _ _ _ _ _ _ _ _ _ P). cbv zeta.
  set (ci := final f modf rm rex sib ov adrsiz fx (breg o)) in *.
  destruct (rex_ok e o f modf rm rex sib ov adrsiz fx b x n F G) as (rexl & rexv & R1 & _ & _). fold ci in R1. rewrite R1. cbn [bindr].
  destruct (disp_size_good e o f modf rm rex sib ov adrsiz fx b x n K F G) as [D1 D2]. fold ci in D1, D2.
  rewrite En.
  assert (Dec : (n = 4%nat -> modf = 0 -> e_ofs e = USE64 -> fits32 (o_disp o)) \/ ~ (n = 4%nat -> modf = 0 -> e_ofs e = USE64 -> fits32 (o_disp o))).
  { unfold fits32. destruct (Nat.eq_dec n 4); [|left; congruence]. destruct (Z.eq_dec modf 0); [|left; congruence]. destruct (e_ofs e); [left; congruence|left; congruence|].
    destruct (Z_le_dec (- 2 ^ 31) (o_disp o)); [|right; intros X; specialize (X ltac:(auto) ltac:(auto) eq_refl); lia]. destruct (Z_lt_dec (o_disp o) (2 ^ 31)); [left; auto|right; intros X; specialize (X ltac:(auto) ltac:(auto) eq_refl); lia]. }
  destruct Dec as [Dk|Dk].
  - rewrite (D1 Dk). cbn [bindr]. split; [|discriminate]. split; [intros _; exact Dk|intros _; eauto].
  - rewrite (D2 Dk). cbn [bindr]. split; [|discriminate]. split; [intros [k Hk]; discriminate|contradiction].
Qed.
