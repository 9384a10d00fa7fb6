(** C39-C42: the bit fields of ModRM, SIB, VEX and EVEX, and the table of memory encodings, checked over all their values. *)
From Coq Require Import String Ascii.
From Verif Require Import Base Mem_Model Mem_Spec V2_Model V2_Spec.
Open Scope list_scope.

Definition zs (n : nat) : list Z := map Z.of_nat (seq 0 n).
Lemma all_lt n (P : Z -> bool) : forallb P (zs n) = true -> forall x, 0 <= x < Z.of_nat n -> P x = true.
Proof.
  intros H x Hx. rewrite forallb_forall in H. apply H. unfold zs. apply in_map_iff. exists (Z.to_nat x). split; [lia|]. apply in_seq. lia.
Qed.
Definition bools := [true; false].
Lemma all_b (P : bool -> bool) : forallb P bools = true -> forall b, P b = true.
Proof. cbn. intros H [|]; destruct (P true), (P false); cbn in H; congruence. Qed.

Lemma modrm_mem tm md rg : 0 <= tm < 8 -> 0 <= md < 3 -> 0 <= rg < 8 ->
  let m := Z.lor (Z.lor tm (64 * md)) (Z.shiftl rg 3) in m / 64 = md /\ (m / 8) mod 8 = rg /\ m mod 8 = tm.
Proof.
  intros A B C m.
  assert (K : (m / 64 =? md) && ((m / 8) mod 8 =? rg) && (m mod 8 =? tm) = true).
  { subst m. revert rg C. refine (all_lt 8 _ _). revert md B. refine (all_lt 3 (fun md => forallb _ (zs 8)) _). revert tm A. refine (all_lt 8 (fun tm => forallb (fun md => forallb _ (zs 8)) (zs 3)) _).
    vm_compute. reflexivity. }
  lia.
Qed.
Lemma modrm_reg rm rg : 0 <= rm < 8 -> 0 <= rg < 8 ->
  let m := Z.lor 0 (Z.lor (Z.lor 0xC0 (Z.shiftl rg 3)) rm) in m / 64 = 3 /\ (m / 8) mod 8 = rg /\ m mod 8 = rm.
Proof.
  intros A B m.
  assert (K : (m / 64 =? 3) && ((m / 8) mod 8 =? rg) && (m mod 8 =? rm) = true).
  { subst m. revert rg B. refine (all_lt 8 _ _). revert rm A. refine (all_lt 8 (fun rm => forallb _ (zs 8)) _). vm_compute. reflexivity. }
  lia.
Qed.
Lemma sib_fields ts sc : 0 <= ts < 64 -> 0 <= sc < 4 ->
  let m := Z.lor ts (Z.shiftl sc 6) in m / 64 = sc /\ (m / 8) mod 8 = ts / 8 /\ m mod 8 = ts mod 8.
Proof.
  intros A B m.
  assert (K : (m / 64 =? sc) && ((m / 8) mod 8 =? ts / 8) && (m mod 8 =? ts mod 8) = true).
  { subst m. revert sc B. refine (all_lt 4 _ _). revert ts A. refine (all_lt 64 (fun ts => forallb _ (zs 4)) _). vm_compute. reflexivity. }
  lia.
Qed.
Lemma num3 n : 0 <= n < 32 -> Z.land n 7 + e8 (bt n 3) + e16 (bt n 4) = n.
Proof. intros H. apply Z.eqb_eq. revert n H. refine (all_lt 32 _ _). vm_compute. reflexivity. Qed.
Lemma land7 n : 0 <= n < 32 -> 0 <= Z.land n 7 < 8 /\ Z.land n 7 = n mod 8.
Proof.
  intros H. assert (K : (0 <=? Z.land n 7) && (Z.land n 7 <? 8) && (Z.land n 7 =? n mod 8) = true) by (revert n H; refine (all_lt 32 _ _); vm_compute; reflexivity). lia.
Qed.
Lemma bt3_ge n : 0 <= n < 16 -> bt n 3 = (7 <? n).
Proof. intros H. apply Bool.eqb_prop. revert n H. refine (all_lt 16 _ _). vm_compute. reflexivity. Qed.
Lemma bit3_bt n : 0 <= n < 32 -> bit3 n = bt n 3.
Proof. intros H. apply Bool.eqb_prop. revert n H. refine (all_lt 32 _ _). vm_compute. reflexivity. Qed.
Lemma bit4_bt n : 0 <= n < 32 -> bit4 n = bt n 4.
Proof. intros H. apply Bool.eqb_prop. revert n H. refine (all_lt 32 _ _). vm_compute. reflexivity. Qed.
Lemma bt4_lt n : 0 <= n < 16 -> bt n 4 = false.
Proof. intros H. apply Bool.eqb_prop. revert n H. refine (all_lt 16 _ _). vm_compute. reflexivity. Qed.
Lemma bt4_ge n : 16 <= n < 32 -> bt n 4 = true.
Proof.
  intros H. apply Bool.eqb_prop. replace n with (16 + (n - 16)) by lia. assert (G : 0 <= n - 16 < Z.of_nat 16) by lia. revert G. generalize (n - 16). refine (all_lt 16 _ _). vm_compute. reflexivity.
Qed.
Lemma bt3_lt8 n : 0 <= n < 8 -> bt n 3 = false.
Proof. intros. rewrite bt3_ge by lia. lia. Qed.

(** VEX *)
Lemma vex3_bytes r x b w vvvv ll pp mp : 0 <= vvvv < 16 -> 0 <= ll < 2 -> 0 <= pp < 4 -> 0 <= mp < 4 ->
  let v := {| v_r := r; v_x := x; v_b := b; v_w := w; v_vvvv := vvvv; v_l := ll; v_pp := pp; v_map := mp |} in
  exists y z, pack_vex true v = [0xC4; y; z] /\ (r = false -> x = false -> 192 <= y) /\
    vex3_head y z = {| h_kind := HVex; h_rex := false; h_w := w; h_r := r; h_x := x; h_b := b; h_r2 := false; h_v2 := false; h_vvvv := vvvv; h_ll := ll; h_pp := pp; h_map := mp; h_z := false; h_bc := false; h_aaa := 0 |}.
Proof.
  intros A B C D v.
  set (y := Z.lor (Z.lor (Z.shiftl (b2z (negb r)) 7) (Z.shiftl (b2z (negb x)) 6)) (Z.lor (Z.shiftl (b2z (negb b)) 5) mp)).
  set (z := Z.lor (Z.lor (Z.shiftl (b2z w) 7) (Z.shiftl (inv4 vvvv) 3)) (Z.lor (Z.shiftl ll 2) pp)).
  exists y, z. split; [reflexivity|].
  assert (K1 : (bt y 7 = negb r /\ bt y 6 = negb x /\ bt y 5 = negb b /\ y mod 32 = mp) /\ (r = false -> x = false -> 192 <= y)).
  { assert (K : Bool.eqb (bt y 7) (negb r) && Bool.eqb (bt y 6) (negb x) && Bool.eqb (bt y 5) (negb b) && (y mod 32 =? mp) && (r || x || (192 <=? y)) = true).
    { subst y. clear - D. revert mp D. refine (all_lt 4 _ _). destruct r, x, b; vm_compute; reflexivity. }
    repeat (apply andb_prop in K as [K ?]). repeat split; try (apply Bool.eqb_prop; assumption); try lia. intros -> ->. cbn in *. lia. }
  assert (K2 : bt z 7 = w /\ (z / 8) mod 16 = 15 - vvvv /\ (z / 4) mod 2 = ll /\ z mod 4 = pp).
  { assert (K : Bool.eqb (bt z 7) w && ((z / 8) mod 16 =? 15 - vvvv) && ((z / 4) mod 2 =? ll) && (z mod 4 =? pp) = true).
    { subst z. clear - A B C. revert pp C. refine (all_lt 4 _ _). revert ll B. refine (all_lt 2 (fun ll => forallb _ (zs 4)) _).
      revert vvvv A. refine (all_lt 16 (fun vvvv => forallb (fun ll => forallb _ (zs 4)) (zs 2)) _). destruct w; vm_compute; reflexivity. }
    repeat (apply andb_prop in K as [K ?]). repeat split; try (apply Bool.eqb_prop; assumption); lia. }
  destruct K1 as [(E1 & E2 & E3 & E4) G], K2 as (F1 & F2 & F3 & F4). split; [exact G|].
  unfold vex3_head. rewrite E1, E2, E3, E4, F1, F2, F3, F4, !negb_involutive. f_equal. lia.
Qed.
Lemma vex2_bytes r vvvv ll pp : 0 <= vvvv < 16 -> 0 <= ll < 2 -> 0 <= pp < 4 ->
  let v := {| v_r := r; v_x := false; v_b := false; v_w := false; v_vvvv := vvvv; v_l := ll; v_pp := pp; v_map := 1 |} in
  exists y, pack_vex false v = [0xC5; y] /\ (r = false -> vvvv < 8 -> 192 <= y) /\
    vex2_head y = {| h_kind := HVex; h_rex := false; h_w := false; h_r := r; h_x := false; h_b := false; h_r2 := false; h_v2 := false; h_vvvv := vvvv; h_ll := ll; h_pp := pp; h_map := 1; h_z := false; h_bc := false; h_aaa := 0 |}.
Proof.
  intros A B C v.
  set (y := Z.lor (Z.lor pp (Z.shiftl ll 2)) (Z.lor (Z.shiftl (inv4 vvvv) 3) (Z.shiftl (b2z (negb r)) 7))).
  exists y. split; [reflexivity|].
  assert (K : Bool.eqb (bt y 7) (negb r) && ((y / 8) mod 16 =? 15 - vvvv) && ((y / 4) mod 2 =? ll) && (y mod 4 =? pp) && (r || (8 <=? vvvv) || (192 <=? y)) = true).
  { subst y. clear - A B C. revert pp C. refine (all_lt 4 _ _). revert ll B. refine (all_lt 2 (fun ll => forallb _ (zs 4)) _).
    revert vvvv A. refine (all_lt 16 (fun vvvv => forallb (fun ll => forallb _ (zs 4)) (zs 2)) _). destruct r; vm_compute; reflexivity. }
  repeat (apply andb_prop in K as [K ?]). apply Bool.eqb_prop in K. split; [intros ->; lia|].
  unfold vex2_head. rewrite K, negb_involutive. f_equal; lia.
Qed.
(** EVEX *)
Lemma evex_bytes e : 0 <= e_vvvv e < 32 -> 0 <= e_ll e < 4 -> 0 <= e_pp e < 4 -> 0 <= e_map e < 4 -> 0 <= e_aaa e < 8 ->
  exists x y z, pack_evex e = [0x62; x; y; z] /\ (e_r e = false -> e_x e = false -> 192 <= x) /\ bt x 3 = false /\ bt x 2 = false /\ bt y 2 = true /\
    evex_head x y z = {| h_kind := HEvex; h_rex := false; h_w := e_w e; h_r := e_r e; h_x := e_x e; h_b := e_b e; h_r2 := e_r2 e; h_v2 := e_v2 e; h_vvvv := (e_vvvv e) mod 16; h_ll := e_ll e;
                         h_pp := e_pp e; h_map := e_map e; h_z := e_z e; h_bc := e_bc e; h_aaa := e_aaa e |}.
Proof.
  destruct e as [r x b r2 v2 w vvvv ll pp mp z bc aaa]. cbn [e_r e_x e_b e_r2 e_v2 e_w e_vvvv e_ll e_pp e_map e_z e_bc e_aaa]. intros A B C D F.
  unfold pack_evex. cbn [e_r e_x e_b e_r2 e_v2 e_w e_vvvv e_ll e_pp e_map e_z e_bc e_aaa].
  eexists _, _, _. split; [reflexivity|].
  match goal with |- (_ -> _ -> 192 <= ?X) /\ _ /\ _ /\ bt ?Y 2 = _ /\ evex_head _ _ ?ZZ = _ => set (p := X); set (q := Y); set (t := ZZ) end.
  assert (K1 : (bt p 7 = negb r /\ bt p 6 = negb x /\ bt p 5 = negb b /\ bt p 4 = negb r2 /\ bt p 3 = false /\ bt p 2 = false /\ p mod 4 = mp) /\ (r = false -> x = false -> 192 <= p)).
  { assert (K : Bool.eqb (bt p 7) (negb r) && Bool.eqb (bt p 6) (negb x) && Bool.eqb (bt p 5) (negb b) && Bool.eqb (bt p 4) (negb r2) && negb (bt p 3) && negb (bt p 2) && (p mod 4 =? mp) && (r || x || (192 <=? p)) = true).
    { subst p q t. clear - D. revert mp D. refine (all_lt 4 _ _). destruct r, x, b, r2; vm_compute; reflexivity. }
    repeat (apply andb_prop in K as [K ?]). repeat split; try (apply Bool.eqb_prop; assumption); try (apply negb_true_iff; assumption); try lia. intros -> ->. cbn in *. lia. }
  assert (K2 : bt q 7 = w /\ (q / 8) mod 16 = 15 - vvvv mod 16 /\ q mod 4 = pp /\ bt q 2 = true).
  { assert (K : Bool.eqb (bt q 7) w && ((q / 8) mod 16 =? 15 - vvvv mod 16) && (q mod 4 =? pp) && bt q 2 = true).
    { subst p q t. clear - A C. revert pp C. refine (all_lt 4 _ _). revert vvvv A. refine (all_lt 32 (fun vvvv => forallb _ (zs 4)) _). destruct w; vm_compute; reflexivity. }
    repeat (apply andb_prop in K as [K ?]). repeat split; try (apply Bool.eqb_prop; assumption); try assumption; lia. }
  assert (K3 : bt t 7 = z /\ (t / 32) mod 4 = ll /\ bt t 4 = bc /\ bt t 3 = negb v2 /\ t mod 8 = aaa).
  { assert (K : Bool.eqb (bt t 7) z && ((t / 32) mod 4 =? ll) && Bool.eqb (bt t 4) bc && Bool.eqb (bt t 3) (negb v2) && (t mod 8 =? aaa) = true).
    { subst p q t. clear - B F. revert aaa F. refine (all_lt 8 _ _). revert ll B. refine (all_lt 4 (fun ll => forallb _ (zs 8)) _). destruct z, bc, v2; vm_compute; reflexivity. }
    repeat (apply andb_prop in K as [K ?]). repeat split; try (apply Bool.eqb_prop; assumption); lia. }
  destruct K1 as [(E1 & E2 & E3 & E4 & E5 & E6 & E7) G], K2 as (F1 & F2 & F3 & F4), K3 as (G1 & G2 & G3 & G4 & G5).
  repeat split; auto. unfold evex_head. rewrite E1, E2, E3, E4, E7, F1, F2, F3, G1, G2, G3, G4, G5, !negb_involutive. f_equal. lia.
Qed.

(** H/MemTable64.h and MemTable32.h *)
Definition tabf (s : ofssize) (b x : Z) : Z * Z * Z :=
  let r := b mod 8 in
  if b <? 16 then
    if x <? 16 then (4, if r =? 5 then 7 else 3, 8 * (x mod 8) + r) else if r =? 4 then (4, 3, 0x24) else (r, (if r =? 5 then 5 else 1), 0)
  else if b =? 16 then (if x <? 16 then (4, 16, 0) else (5, 9, 0))
  else if x <? 16 then (4, 11, 8 * (x mod 8) + 5) else match s with USE64 => (4, 11, 0x25) | _ => (5, 9, 0) end.
Definition eq3 (a b : Z * Z * Z) : bool := let '(x, y, z) := a in let '(x', y', z') := b in (x =? x') && (y =? y') && (z =? z').
Lemma eq3_eq a b : eq3 a b = true -> a = b.
Proof. destruct a as [[? ?] ?], b as [[? ?] ?]. cbn. intros. repeat f_equal; lia. Qed.
Lemma tab64 b x : 0 <= b < 18 -> 0 <= x < 16 \/ x = 17 -> tab USE64 b x = tabf USE64 b x.
Proof.
  intros A B. apply eq3_eq.
  assert (K : forallb (fun b => forallb (fun x => (x =? 16) || eq3 (tab USE64 b x) (tabf USE64 b x)) (zs 18)) (zs 18) = true) by (vm_compute; reflexivity).
  pose proof (all_lt 18 _ K b A) as K2. cbv beta in K2. assert (B2 : 0 <= x < Z.of_nat 18) by lia. pose proof (all_lt 18 _ K2 x B2) as K3. cbv beta in K3. apply orb_prop in K3 as [K3 | K3]; [lia|exact K3].
Qed.
Lemma tab32 b x : 0 <= b < 8 \/ b = 17 -> 0 <= x < 8 \/ x = 17 -> tab USE32 b x = tabf USE32 b x.
Proof.
  intros A B. apply eq3_eq.
  assert (K : forallb (fun b => forallb (fun x => (x =? 16) || eq3 (tab USE32 b x) (tabf USE32 b x)) (zs 18)) (zs 8 ++ [17]) = true) by (vm_compute; reflexivity).
  rewrite forallb_forall in K. assert (I : In b (zs 8 ++ [17])).
  { apply in_or_app. destruct A as [A | A]; [left|right; left; lia]. unfold zs. apply in_map_iff. exists (Z.to_nat b). split; [lia|]. apply in_seq. lia. }
  pose proof (K b I) as K2. cbv beta in K2. assert (B2 : 0 <= x < Z.of_nat 18) by lia. pose proof (all_lt 18 _ K2 x B2) as K3. cbv beta in K3. apply orb_prop in K3 as [K3 | K3]; [lia|exact K3].
Qed.
