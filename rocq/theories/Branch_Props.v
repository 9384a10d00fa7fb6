(** C26: branch instructions reach their targets. *)
From Verif Require Import Base.
From Verif Require Import Mem_Model.
From Verif Require Import Branch_Model Branch_Spec Branch_Proofs BranchPass_Proofs BranchLink_Proofs.

(** The bytes written for a branch to a label of the segment, executed by the
    processor at the offset where they stand, do what the mnemonic says with
    the label (plus offset) as target. *)
Theorem C26_reaches : forall e p cur t o s h d m,
  s_state s = SYM_INTERNAL -> s_hasseg s = true -> s_inseg s = true -> (s_met s = true \/ cur <= s_offset s) ->
  available (e_ofs e) t = true ->
  (p = BND -> P_386 <= e_cpu e) ->
  (pushes t o s = true -> e_ofs e <> USE64) ->
  let T := s_offset s + o_value o in
  cast_ok e o T (cur + zlen (h ++ d)) ->
  (e_ofs e = USE64 -> - 2 ^ 31 <= T - (cur + zlen (h ++ d)) < 2 ^ 31) ->
  branch e p cur t o s = Ok (h, d, None) ->
  run 3 (e_ofs e) m cur (h ++ d) false =
    Some (means (e_ofs e) t (pushes t o s) m (T mod 2 ^ bits (e_ofs e)) ((cur + zlen (h ++ d)) mod 2 ^ bits (e_ofs e)), None).
Proof. exact branch_reaches. Qed.
Print Assumptions C26_reaches.

(** The short form is taken whenever the target is within reach and no cast
    forbids it; and the only branches refused are those that exist in a short
    form only (SHORT, LOOPcc, JxCXZ) with a target out of reach. *)
Theorem C26_accepted : forall e p cur t o s,
  s_state s = SYM_INTERNAL -> s_hasseg s = true -> s_inseg s = true -> (s_met s = true \/ cur <= s_offset s) ->
  min_cpu t <= e_cpu e -> prefix_ok p t = true -> available (e_ofs e) t = true ->
  mt0 o = MT_EMPTY \/ mt0 o = MT_NEAR ->
  let disp := s_offset s + o_value o - (cur + short_len e p t) in
  - 2 ^ 31 <= disp < 2 ^ 31 ->
  (is_call t = false -> mt0 o = MT_EMPTY -> -128 <= disp <= 127 ->
     exists h d, branch e p cur t o s = Ok (h, d, None) /\ zlen (h ++ d) = short_len e p t) /\
  ((exists h d, branch e p cur t o s = Ok (h, d, None)) <->
   (o_short o = true \/ counts t = true -> is_call t = false /\ mt0 o = MT_EMPTY /\ -128 <= disp <= 127)).
Proof. exact branch_accepts'. Qed.
Print Assumptions C26_accepted.

(** Whole segments: whatever label offsets the earlier passes left behind, if
    the assembler stops after a pass, every branch of the final bytes reaches
    the place where its label finally is. *)
Theorem C26_program : forall fuel far prog tb prev l tb' i j e p t o n c m,
  passes fuel far prog tb prev = Ok (l, tb') -> NoDup (labels prog) -> zlen (concat l) < 2 ^ 32 ->
  nth_error prog i = Some (IBranch e p t o n) -> nth_error prog j = Some (ILabel n) -> nth_error l i = Some c ->
  mt0 o = MT_EMPTY \/ mt0 o = MT_NEAR ->
  (p = BND -> P_386 <= e_cpu e) ->
  let push := is_call t && far n && mt_eqb (mt0 o) MT_EMPTY in
  (push = true -> e_ofs e <> USE64) ->
  let cur := position l i in
  let T := position l j + o_value o in
  cast_ok e o T (cur + zlen c) ->
  (e_ofs e = USE64 -> - 2 ^ 31 <= T - (cur + zlen c) < 2 ^ 31) ->
  run 3 (e_ofs e) m cur c false =
    Some (means (e_ofs e) t push m (T mod 2 ^ bits (e_ofs e)) ((cur + zlen c) mod 2 ^ bits (e_ofs e)), None).
Proof.
  intros fuel far prog tb prev l tb' i j e p t o n c m H. destruct (passes_final _ _ _ _ _ _ _ H) as (tb0 & P).
  exact (pass_reaches far prog tb0 l tb' i j e p t o n c m P).
Qed.
Print Assumptions C26_program.

(** The last pass defines every label at the place where it stands. *)
Theorem C26_labels : forall fuel far prog tb prev l tb' j n,
  passes fuel far prog tb prev = Ok (l, tb') -> NoDup (labels prog) -> nth_error prog j = Some (ILabel n) ->
  exists tb0, pass far prog 0 (new_pass tb0) = Ok (l, tb', false) /\ fst (tb0 n) = wrap 32 (position l j).
Proof.
  intros fuel far prog tb prev l tb' j n H ND J. destruct (passes_final _ _ _ _ _ _ _ H) as (tb0 & P).
  exists tb0. split; [exact P|]. exact (pass_label far n prog 0 (new_pass tb0) l tb' j P ND J).
Qed.
Print Assumptions C26_labels.
(** Between the branches: data is stored as written, labels take no room, and
    the padding before an aligned position consists of zero bytes, brings the
    position to the boundary and is shorter than the boundary. *)
Theorem C26_contents : forall fuel far prog tb prev l tb',
  passes fuel far prog tb prev = Ok (l, tb') ->
  length l = length prog /\
  forall k i c, nth_error prog k = Some i -> nth_error l k = Some c ->
  match i with
  | ILabel _ => c = []
  | IData bs => c = bs
  | IAlign n => 0 < n -> (position l k + zlen c) mod n = 0 /\ zlen c < n /\ Forall (eq 0) c
  | IBranch _ _ _ _ _ => True
  end.
Proof. intros fuel far prog tb prev l tb'. exact (passes_bytes fuel far prog tb prev l tb'). Qed.
Print Assumptions C26_contents.

(** Symbols of other segments or modules: once the linker has filled the
    relative field, the branch reaches the symbol. *)
Theorem C26_linked_near : forall e p cur t o s h d f sel S m,
  linkable o s = true -> available (e_ofs e) t = true ->
  (p = BND -> P_386 <= e_cpu e) -> (e_ofs e <> USE16 -> P_386 <= e_cpu e) ->
  (pushx t o s = true -> e_ofs e <> USE64) ->
  branch e p cur t o s = Ok (h, d, Some f) ->
  rel_size f = Some (length d) ->
  let T := S + o_value o in
  let next := cur + zlen (h ++ d) in
  cast_ok e o T next -> (e_ofs e = USE64 -> - 2 ^ 31 <= T - next < 2 ^ 31) ->
  (f = FIX_RELOFF8 -> -128 <= T - next <= 127) ->
  run 3 (e_ofs e) m cur (h ++ link f (cur + zlen h) d sel S) false =
    Some (means (e_ofs e) t (pushx t o s) m (T mod 2 ^ bits (e_ofs e)) (next mod 2 ^ bits (e_ofs e)), None).
Proof.
  intros e p cur t o s h d f sel S m L. destruct (linkable_state cur o s L) as (a & TS).
  exact (branch_links_near e p cur t o s h d f a sel S m TS).
Qed.
Print Assumptions C26_linked_near.

(** Far pointers: the linked instruction loads the symbol's selector and offset. *)
Theorem C26_linked_far : forall e p cur t o s h d f sel S m,
  linkable o s = true -> e_ofs e <> USE64 ->
  (e_ofs e <> USE16 -> P_386 <= e_cpu e) -> (IS_JCC t = true -> p <> BND) ->
  branch e p cur t o s = Ok (h, d, Some f) -> rel_size f = None ->
  let T := S + o_value o in
  let next := cur + zlen (h ++ d) in
  0 <= sel < 2 ^ 16 -> 0 <= T < 2 ^ (8 * (fix_size f - 2)) ->
  zlen d = fix_size f /\
  run 3 (e_ofs e) m cur (h ++ link f (cur + zlen h) d sel S) false = Some (far_means t m T sel next (next mod 2 ^ bits (e_ofs e))).
Proof.
  intros e p cur t o s h d f sel S m L. destruct (linkable_state cur o s L) as (a & TS).
  exact (branch_links_far e p cur t o s h d f a sel S m TS).
Qed.
Print Assumptions C26_linked_far.

(** Which of these branches are accepted, and with which field. *)
Theorem C26_linked_accepted : forall e cur t o s,
  linkable o s = true -> min_cpu t <= e_cpu e ->
  match ext_form e t o s with
  | Some f => exists h d, branch e NoPrefix cur t o s = Ok (h, d, Some f)
  | None => branch e NoPrefix cur t o s = Err
  end.
Proof.
  intros e cur t o s L. destruct (linkable_state cur o s L) as (a & TS). exact (ext_accepts e cur t o s a TS).
Qed.
Print Assumptions C26_linked_accepted.

(** NEAR casts to a segment of another group are refused. *)
Theorem C26_group : forall e p cur t o s,
  s_state s = SYM_INTERNAL \/ (s_state s = SYM_EXTERNAL /\ s_weak s = false) ->
  elsewhere s = true -> linkable o s = false -> branch e p cur t o s = Err.
Proof.
  intros e p cur t o s ST EL L. unfold branch, process_branch.
  assert (T : target_state cur o s = Err).
  { unfold target_state, linkable, elsewhere in *.
    destruct ST as [ST|[ST WK]]; rewrite ST in *; try rewrite WK in *;
      destruct (s_hasseg s), (s_inseg s), (s_flat s), (s_group s), (mt_eqb (o_mt o) MT_NEAR); try discriminate; reflexivity. }
  rewrite T. reflexivity.
Qed.
Print Assumptions C26_group.

(** * Examples *)
Definition env16 := {| e_ofs := USE16; e_cpu := 0; e_ljmp := true |}.
Definition env32 := {| e_ofs := USE32; e_cpu := 3; e_ljmp := true |}.
Definition env64 := {| e_ofs := USE64; e_cpu := 7; e_ljmp := true |}.
Definition plain := {| o_explicit := false; o_mt := MT_NEAR; o_short := false; o_ofs := None; o_value := 0 |}.
Definition cast x v := {| o_explicit := true; o_mt := MT_NEAR; o_short := false; o_ofs := x; o_value := v |}.
Definition here ofs off := {| s_state := SYM_INTERNAL; s_weak := false; s_mt := MT_NEAR; s_offset := off; s_met := true; s_ofs := ofs;
  s_hasseg := true; s_inseg := true; s_flat := false; s_group := false |}.
Definition extern ofs mt := {| s_state := SYM_EXTERNAL; s_weak := false; s_mt := mt; s_offset := 0; s_met := false; s_ofs := ofs;
  s_hasseg := false; s_inseg := false; s_flat := false; s_group := false |}.
Definition m0 := {| CF := true; ZF := false; SF := false; OF := false; PF := false; rcx := 1 |}.

(** backward and forward jumps in a program whose forward jump had been taken
    for a long one: three passes *)
Definition prog0 := [ILabel 0; IData (repeat 0x90 100); IBranch env32 NoPrefix (JCC jA) plain 1; IAlign 16; ILabel 1;
                     IBranch env32 NoPrefix LOOP plain 0; IBranch env32 BND CALL (cast None 4) 0].
Example C26_program_example : exists l tb', passes 5 (fun _ => false) prog0 (fun n => (if Nat.eqb n 1 then 1000 else 0, false)) 0 = Ok (l, tb') /\
  NoDup (labels prog0) /\ nth_error l 2 = Some [0x77; 10] /\ nth_error l 5 = Some [0xE2; 0x8E] /\ nth_error l 6 = Some [0xF2; 0xE8; 0x8C; 0xFF; 0xFF; 0xFF].
Proof.
  eexists _, _. split; [vm_compute; reflexivity|]. split; [|vm_compute; auto].
  repeat constructor; cbn; intuition discriminate.
Qed.
(** out of reach of SHORT: a long jump on the 386, a jump around a jump on the 8086 *)
Example C26_long : branch env32 NoPrefix 0 (JCC jE) plain (here USE32 1000) = Ok ([0x0F; 0x84], [0xE2; 3; 0; 0], None) /\
  branch env16 NoPrefix 0 (JCC jE) plain (here USE16 1000) = Ok ([0x75; 3; 0xE9], [0xE3; 3], None) /\
  branch env64 NoPrefix 0 JECXZ plain (here USE64 130) = Ok ([0x67; 0xE3], [127], None) /\
  branch env64 NoPrefix 0 JECXZ plain (here USE64 131) = Err.
Proof. repeat split. Qed.
Example C26_linked_example :
  branch env32 NoPrefix 0x100 JMP plain (extern USE32 MT_NEAR) = Ok ([0xE9], [0; 0; 0; 0], Some FIX_RELOFF32) /\
  link FIX_RELOFF32 0x101 [0; 0; 0; 0] 0 0x500 = [0xFB; 3; 0; 0] /\
  branch env32 NoPrefix 0x100 (JCC jE) {| o_explicit := false; o_mt := MT_FAR; o_short := false; o_ofs := None; o_value := 0 |} (extern USE16 MT_FAR)
    = Ok ([0x75; 6; 0x66; 0xEA], [0; 0; 0; 0], Some FIX_PTR16).
Proof. repeat split. Qed.

(** * Where the code falls short of the claim *)
(** BND before a conditional jump that OPTION LJMP turns into a jump around a
    jump (8086): the prefix lands between the two jumps and is not counted. *)
Theorem C26_bnd_extend_refuted : exists h d,
  branch env16 BND 0 (JCC jE) plain (here USE16 1000) = Ok (h, d, None) /\
  run 3 USE16 m0 0 (h ++ d) false <> Some (means USE16 (JCC jE) false m0 1000 (zlen (h ++ d)), None).
Proof. eexists _, _. split; [reflexivity|]. vm_compute. discriminate. Qed.
Print Assumptions C26_bnd_extend_refuted.
(** CALL to a FAR procedure of the segment becomes PUSH CS + near call; PUSH CS
    does not exist in 64-bit code. *)
Theorem C26_push_cs_refuted : exists h d,
  branch env64 NoPrefix 0 CALL {| o_explicit := false; o_mt := MT_FAR; o_short := false; o_ofs := None; o_value := 0 |}
    {| s_state := SYM_INTERNAL; s_weak := false; s_mt := MT_FAR; s_offset := 64; s_met := true; s_ofs := USE64;
       s_hasseg := true; s_inseg := true; s_flat := false; s_group := false |} = Ok (h, d, None) /\
  run 3 USE64 m0 0 (h ++ d) false = None.
Proof. eexists _, _. split; reflexivity. Qed.
Print Assumptions C26_push_cs_refuted.
(** JMP NEAR32 PTR in 64-bit code writes 66 E9 with a 4-byte displacement. *)
Theorem C26_near32_refuted : exists h d,
  branch env64 NoPrefix 0 JMP (cast (Some USE32) 0) (here USE64 1000) = Ok (h, d, None) /\ run 3 USE64 m0 0 (h ++ d) false = None.
Proof. eexists _, _. split; reflexivity. Qed.
Print Assumptions C26_near32_refuted.
(** JMP NEAR16 PTR in 32-bit code truncates the target silently. *)
Theorem C26_near16_refuted : exists h d,
  branch env32 NoPrefix 0x20000 JMP (cast (Some USE16) 0) (here USE32 0x21000) = Ok (h, d, None) /\
  run 3 USE32 m0 0x20000 (h ++ d) false = Some ({| dest := 0x1000; ret := None; pushed_cs := false; count := 1 |}, None).
Proof. eexists _, _. split; reflexivity. Qed.
Print Assumptions C26_near16_refuted.
(** A displacement beyond 2 GB is cut off without a message. *)
Theorem C26_distance_refuted : exists h d,
  branch env64 NoPrefix 0 JMP plain (here USE64 0x90000000) = Ok (h, d, None) /\
  run 3 USE64 m0 0 (h ++ d) false <> Some (means USE64 JMP false m0 0x90000000 (zlen (h ++ d)), None).
Proof. eexists _, _. split; [reflexivity|]. vm_compute. discriminate. Qed.
Print Assumptions C26_distance_refuted.
(** Jcc NEAR32 PTR to an external symbol: the 4-byte field gets an 8-bit fixup
    (branch.c 568-577), so the linked jump goes astray. *)
Theorem C26_jcc_cast_refuted : exists h d,
  branch env32 NoPrefix 0 (JCC jB) (cast (Some USE32) 0) (extern USE32 MT_NEAR) = Ok (h, d, Some FIX_RELOFF8) /\
  zlen d = 4 /\
  run 3 USE32 m0 0 (h ++ link FIX_RELOFF8 (zlen h) d 0 70) false <> Some (means USE32 (JCC jB) false m0 70 6, None).
Proof. eexists _, _. split; [reflexivity|]. split; [reflexivity|]. vm_compute. discriminate. Qed.
Print Assumptions C26_jcc_cast_refuted.
