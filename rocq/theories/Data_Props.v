From Verif Require Import Base Expr_Spec Expr_Model Data_Model Data_Spec Data_Proofs DataList_Proofs.

(** C04. Items of 1 to 8 bytes: a constant is accepted exactly when it lies between
    -2^(8n) and 2^(8n), and the bytes are those of its value modulo 2^(8n). *)
Theorem C04_small : forall n e bs, 1 <= n <= 8 -> word64 e ->
  store_const n e = Ok bs <->
  - 2 ^ (8 * n) <= int64 e < 2 ^ (8 * n) /\ bs = le_bytes (Z.to_nat n) (int64 e) /\ le_val bs = int64 e mod 2 ^ (8 * n).
Proof.
  intros n e bs Hn W. rewrite store_const_spec by (auto; lia). unfold const_bytes. rewrite (proj2 (Z.leb_le n 8)) by lia.
  assert (le_bytes (Z.to_nat n) (int64 e) = le_bytes (Z.to_nat n) (ll e)) as EB.
  { apply le_bytes_cong. rewrite Z2Nat.id by lia. unfold int64, sg. destruct (ll e <? 2 ^ 63); [reflexivity|].
    replace (ll e - 2 ^ 64) with (ll e + (- 2 ^ (64 - 8 * n)) * 2 ^ (8 * n)); [apply Z.mod_add; pose proof (Z.pow_pos_nonneg 2 (8 * n)); lia|].
    rewrite Z.mul_opp_l, <- Z.pow_add_r by lia. replace (64 - 8 * n + 8 * n) with 64 by lia. lia. }
  split.
  - destruct (_ && _) eqn:E; cbn [as_res]; [|discriminate]. apply andb_true_iff in E. destruct E as [E1 E2].
    intros [= <-]. rewrite <- EB. split; [lia|]. split; [reflexivity|]. rewrite le_val_le_bytes, Z2Nat.id by lia. reflexivity.
  - intros ((H1 & H2) & -> & _). rewrite (proj2 (Z.leb_le _ _) H1), (proj2 (Z.ltb_lt _ _) H2). cbn [andb as_res]. rewrite EB. reflexivity.
Qed.
Print Assumptions C04_small.

(** Items of 9 to 16 bytes: the 128-bit value modulo 2^(8n); only for 10 bytes is the magnitude checked. *)
Theorem C04_large : forall n e bs, 8 < n <= 16 -> word64 e ->
  store_const n e = Ok bs <->
  (n = 10 -> upper e <= 0xffff \/ 2 ^ 64 - 0xffff <= upper e) /\ bs = le_bytes (Z.to_nat n) (int128 e) /\ le_val bs = int128 e mod 2 ^ (8 * n).
Proof.
  intros n e bs Hn W. rewrite store_const_spec by (auto; lia). unfold const_bytes. rewrite (proj2 (Z.leb_gt n 8)), (proj2 (Z.leb_le n 16)) by lia.
  assert (forall x, le_val (le_bytes (Z.to_nat n) x) = x mod 2 ^ (8 * n)) as LV by (intros; rewrite le_val_le_bytes, Z2Nat.id by lia; reflexivity).
  split.
  - destruct ((n =? 10) && (65535 <? upper e) && (upper e <? 2 ^ 64 - 65535)) eqn:E; cbn [as_res]; [discriminate|]. intros [= <-]. split; [|auto].
    intros E10. rewrite (proj2 (Z.eqb_eq n 10) E10) in E. cbn [andb] in E. apply andb_false_iff in E. destruct E as [E|E]; lia.
  - intros (H & -> & _). destruct ((n =? 10) && (65535 <? upper e) && (upper e <? 2 ^ 64 - 65535)) eqn:E; [|reflexivity].
    exfalso. apply andb_true_iff in E. destruct E as [E E3]. apply andb_true_iff in E. destruct E as [E1 E2]. destruct (H ltac:(lia)); lia.
Qed.
Print Assumptions C04_large.

(** Larger items (YMMWORD): the 16 bytes and their sign. *)
Theorem C04_extended : forall n e, 16 < n -> word64 e ->
  exists bs, store_const n e = Ok bs /\ le_val bs = (let v := ll e + 2 ^ 64 * hl e in if v <? 2 ^ 127 then v else v - 2 ^ 128) mod 2 ^ (8 * n).
Proof.
  intros n e Hn W. rewrite store_const_spec by (auto; lia). unfold const_bytes. rewrite (proj2 (Z.leb_gt n 8)), (proj2 (Z.leb_gt n 16)) by lia.
  eexists. split; [reflexivity|]. cbv zeta. rewrite le_val_le_bytes, Z2Nat.id by lia. reflexivity.
Qed.
Print Assumptions C04_extended.

(** Every value that fits as a signed or an unsigned number of n bytes is accepted. *)
Theorem C04_fits : forall n e, 1 <= n <= 8 -> word64 e -> - 2 ^ (8 * n - 1) <= int64 e < 2 ^ (8 * n) ->
  store_const n e = Ok (le_bytes (Z.to_nat n) (int64 e)).
Proof.
  intros n e Hn W H. apply C04_small; auto. split.
  - assert (2 ^ (8 * n) = 2 * 2 ^ (8 * n - 1)) as E by (rewrite <- Z.pow_succ_r by lia; f_equal; lia).
    pose proof (Z.pow_pos_nonneg 2 (8 * n - 1) ltac:(lia) ltac:(lia)). lia.
  - split; [reflexivity|]. rewrite le_val_le_bytes, Z2Nat.id by lia. reflexivity.
Qed.
Print Assumptions C04_fits.

Definition const (v : Z) : expr := {| ll := v; hl := 0; neg := false |}.
Example C04_demo : store_const 2 (negative_op (const 2)) = Ok [0xfe; 0xff] /\ store_const 2 (const 0x12345) = Err /\
  store_const 10 (negative_op (const 2)) = Ok (0xfe :: repeat 0xff 9) /\ store_const 1 (const 255) = Ok [255] /\ word64 (negative_op (const 2)).
Proof. split; [reflexivity|]. split; [reflexivity|]. split; [reflexivity|]. split; [reflexivity|]. vm_compute. split; split; congruence. Qed.

(** A negative value below -2^(8n-1) is stored although it fits neither way: DB -200 gives 38h. *)
Theorem C04_range_refuted : exists n e bs, 1 <= n <= 8 /\ word64 e /\ int64 e < - 2 ^ (8 * n - 1) /\ store_const n e = Ok bs.
Proof.
  exists 1, (negative_op (const 200)), [0x38]. split; [lia|]. split; [vm_compute; split; split; congruence|]. split; [vm_compute; reflexivity|reflexivity].
Qed.
Print Assumptions C04_range_refuted.

(** The upper half is not looked at: DQ 10000000000000000h (2^64) stores 0. *)
Theorem C04_upper_half_refuted : exists n e bs, 1 <= n <= 8 /\ word64 e /\ 2 ^ (8 * n) <= ll e + 2 ^ 64 * hl e < 2 ^ 127 /\ store_const n e = Ok bs.
Proof.
  exists 8, {| ll := 0; hl := 1; neg := false |}, (repeat 0 8). split; [lia|]. split; [vm_compute; split; split; congruence|]. split; [vm_compute; split; congruence|reflexivity].
Qed.
Print Assumptions C04_upper_half_refuted.

(** OWORD 5-10 stores 2^64-5, and OWORD -(2^64-1) stores 1. *)
Theorem C04_oword_refuted :
  (exists r bs, calculate false TMinus (Some (const 5)) (Some (const 10)) = Val r /\ store_const 16 r = Ok bs /\ le_val bs <> (5 - 10) mod 2 ^ 128) /\
  (exists r bs, calculate false TMinus None (Some (const (2 ^ 64 - 1))) = Val r /\ store_const 16 r = Ok bs /\ le_val bs <> (- (2 ^ 64 - 1)) mod 2 ^ 128).
Proof.
  split; eexists; eexists; (split; [vm_compute; reflexivity|]; split; [vm_compute; reflexivity|]); vm_compute; discriminate.
Qed.
Print Assumptions C04_oword_refuted.

(** C05. Any initializer list: accepted exactly when the list denotes cells, and
    then exactly these are stored (up to 4 GB), DUP nested to any depth. *)
Theorem C05_expansion : forall v is, 0 < nb v -> literals v = false -> wfs is ->
  match list_cells (nb v) is with
  | None => data_dir v (list_toks is) = Bad_
  | Some cs => exists s, data_dir v (list_toks is) = Good s /\ (zlen cs < 2 ^ 32 -> image s = cs)
  end.
Proof.
  intros v is Hn Hl W. pose proof (data_dir_spec v is Hn Hl W) as H. destruct (list_cells (nb v) is) as [cs|]; [|exact H].
  destruct H as (s & E & H). exists s. split; [exact E|]. intros ZL. apply (H ZL).
Qed.
Print Assumptions C05_expansion.

(** Whatever the tokens are, the scan ends. *)
Theorem C05_ends : forall v ts, data_dir v ts <> NoFuel.
Proof. exact data_dir_ends. Qed.
Print Assumptions C05_ends.

(** LENGTHOF and SIZEOF (total_length, total_size) are the number of items and of
    bytes; TYPE arrays are marked. Not for DW with strings of 2 characters. *)
Theorem C05_sizes : forall v is cs s, 0 < nb v -> literals v = false -> wfs is -> named v = true ->
  nb v <> 2 \/ all_single is ->
  list_cells (nb v) is = Some cs -> zlen cs < 2 ^ 32 -> data_dir v (list_toks is) = Good s ->
  l_size (lab s) = zlen cs /\ l_length (lab s) * nb v = zlen cs /\ l_length (lab s) = sum (map (count (nb v)) is) /\
  l_array (lab s) = is_array (nb v) is.
Proof.
  intros v is cs s Hn Hl W Nm HS HC ZL HD. pose proof (data_dir_spec v is Hn Hl W) as H. rewrite HC in H.
  destruct H as (s' & E & H). rewrite HD in E. injection E as <-. destruct (H ZL) as [_ H1]. destruct (H1 Nm) as (A & B & C & _).
  pose proof (bytes_of_list (nb v) is cs Hn HS HC) as L. pose proof (zlen_nonneg cs) as P.
  assert (0 <= cnt (nb v) is < 2 ^ 32) as R by nia.
  rewrite Z.mod_small in A by exact R. rewrite Z.mod_small in B by lia. rewrite A, B. unfold cnt in *. split; [lia|]. split; [lia|]. auto.
Qed.
Print Assumptions C05_sizes.

(** LENGTH and SIZE (first_length, first_size) are those of the first dimension. *)
Theorem C05_first : forall v is cs s, 0 < nb v -> literals v = false -> wfs is -> named v = true ->
  list_cells (nb v) is = Some cs -> zlen cs < 2 ^ 32 -> data_dir v (list_toks is) = Good s ->
  l_first_length (lab s) = fst (first_dim (nb v) is) mod 2 ^ 32 /\ l_first_size (lab s) = snd (first_dim (nb v) is) mod 2 ^ 32.
Proof.
  intros v is cs s Hn Hl W Nm HC ZL HD. pose proof (data_dir_spec v is Hn Hl W) as H. rewrite HC in H.
  destruct H as (s' & E & H). rewrite HD in E. injection E as <-. destruct (H ZL) as [_ H1]. destruct (H1 Nm) as (_ & _ & _ & D).
  unfold dims, dim32 in D. injection D as D1 D2. split; assumption.
Qed.
Print Assumptions C05_first.

(** v DW 3 DUP (1, 2 DUP (?, 'A')), 7 *)
Definition C05_env (n : Z) : env := {| nb := n; named := true; literals := false; word := false |}.
Definition C05_list : list item := [Dup (const 3) [Num (const 1); Dup (const 2) [Quest; Str [65]]]; Num (const 7)].
Example C05_demo : wfs C05_list /\ all_single C05_list /\
  list_cells 2 C05_list = Some (times 3 ([Some 1; Some 0] ++ times 2 [None; None; Some 65; Some 0]) ++ [Some 7; Some 0]) /\
  exists s, data_dir (C05_env 2) (list_toks C05_list) = Good s /\ l_length (lab s) = 16 /\ l_size (lab s) = 32 /\ l_first_length (lab s) = 3 /\
    l_first_size (lab s) = 6 /\ l_array (lab s) = true /\ zlen (image s) = 32.
Proof.
  split; [vm_compute; repeat split; congruence|]. split; [vm_compute; repeat split|]. split; [reflexivity|].
  destruct (data_dir (C05_env 2) (list_toks C05_list)) as [s| | |] eqn:E; [|vm_compute in E; discriminate|vm_compute in E; discriminate|vm_compute in E; discriminate].
  exists s. split; [reflexivity|]. vm_compute in E. injection E as <-. repeat split.
Qed.

(** v DW "AB" stores one word, yet LENGTHOF is 2 and SIZEOF 4. *)
Theorem C05_word_string_refuted : exists v is cs s, 0 < nb v /\ literals v = false /\ wfs is /\ named v = true /\
  list_cells (nb v) is = Some cs /\ data_dir v (list_toks is) = Good s /\ image s = cs /\ zlen cs = 2 /\ l_size (lab s) = 4 /\ l_length (lab s) = 2.
Proof.
  exists (C05_env 2), [Str [65; 66]], [Some 66; Some 65].
  destruct (data_dir (C05_env 2) (list_toks [Str [65; 66]])) as [s| | |] eqn:E; [|vm_compute in E; discriminate|vm_compute in E; discriminate|vm_compute in E; discriminate].
  exists s. vm_compute in E. injection E as <-. repeat split.
Qed.
Print Assumptions C05_word_string_refuted.

(** DQ 20000000h DUP (?): the size wraps to 0 and nothing is reserved. *)
Theorem C05_reserve_refuted : exists v is cs s, 0 < nb v /\ literals v = false /\ wfs is /\
  list_cells (nb v) is = Some cs /\ 0 < zlen cs /\ data_dir v (list_toks is) = Good s /\ image s = [].
Proof.
  set (v := C05_env 8). set (is := [Dup (const (2 ^ 29)) [Quest]]).
  exists v, is, (times (2 ^ 29) (repeat None 8)).
  set (s := {| out := [Space 0]; lab := {| l_length := 2 ^ 29; l_size := 0; l_first_length := 2 ^ 29; l_first_size := 0; l_array := true |} |}).
  exists s. split; [reflexivity|]. split; [reflexivity|]. split; [vm_compute; repeat split; congruence|].
  split; [unfold is, list_cells; cbn [map all]; unfold cells; change (repeats (const (2 ^ 29))) with (2 ^ 29);
          rewrite (proj2 (Z.leb_gt (2 ^ 31) (2 ^ 29))) by lia; rewrite (proj2 (Z.eqb_neq (2 ^ 29) 0)) by lia;
          cbn [map all option_map]; rewrite !app_nil_r; reflexivity|].
  split; [rewrite times_zlen by lia; change (zlen (repeat (@None Z) 8)) with 8; lia|].
  split; [|reflexivity].
  unfold data_dir. change (2 * length (list_toks is) + 2)%nat with 12%nat. change (list_toks is) with [DConst (const (2 ^ 29)); DDup; DOpen; DQuest; DClose].
  assert (forall d, 0 < d -> data_item 10 v d true (set_array {| out := []; lab := no_label |}) [DQuest; DClose] =
    let s := set_first (emit (set_array {| out := []; lab := no_label |}) (Space (u32 (8 * d)))) (u32 (0 + d)) (u32 (0 + d) * 8) in
    Good (add_total s (u32 (0 + d)) (u32 (0 + d) * 8), [DClose])) as H.
  { intros d Hd. cbn [data_item]. destruct (Z.to_nat d) as [|k] eqn:E; [lia|]. cbn [run_loop]. rewrite <- E. rewrite Z2Nat.id by lia. reflexivity. }
  assert (forall e, 0 < swrap 32 (ll e) -> data_item 12 v 1 true {| out := []; lab := no_label |} [DConst e; DDup; DOpen; DQuest; DClose] =
    let c := swrap 32 (ll e) in
    let s := set_first (emit (set_array {| out := []; lab := no_label |}) (Space (u32 (8 * c)))) (u32 (0 + c)) (u32 (0 + c) * 8) in
    Good (add_total (set_first (add_total s (u32 (0 + c)) (u32 (0 + c) * 8)) c (c * 8)) 0 (0 * 8), [])) as G.
  { change 12%nat with (S (S 10)). revert H. generalize 10%nat as n. intros n H e He. cbn [data_item]. change (Z.to_nat 1) with 1%nat. cbn [run_loop items].
    rewrite (proj2 (Z.ltb_ge (swrap 32 (ll e)) 0)), (proj2 (Z.eqb_neq (swrap 32 (ll e)) 0)) by lia.
    cbn [first st]. rewrite H by exact He. reflexivity. }
  rewrite G by reflexivity. vm_compute. reflexivity.
Qed.
Print Assumptions C05_reserve_refuted.

(** With OPTION LITERALS:ON a string of 4 characters in DD stores nothing. *)
Theorem C05_literals_refuted : exists v is s cs, literals v = true /\ list_cells (nb v) is = Some cs /\ zlen cs = 4 /\
  data_dir v (list_toks is) = Good s /\ image s = [] /\ l_size (lab s) = 4.
Proof.
  exists {| nb := 4; named := true; literals := true; word := false |}, [Str [65; 66; 67; 68]].
  set (s := {| out := []; lab := {| l_length := 1; l_size := 4; l_first_length := 1; l_first_size := 4; l_array := false |} |}).
  exists s. eexists. split; [reflexivity|]. split; [reflexivity|]. split; [reflexivity|]. split; [vm_compute; reflexivity|]. split; reflexivity.
Qed.
Print Assumptions C05_literals_refuted.
