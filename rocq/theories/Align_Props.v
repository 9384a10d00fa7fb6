(** C29: alignment padding. *)
From Verif Require Import Base Align_Model Align_Spec Align_Proofs.

(** ALIGN n, ALIGN and EVEN move the location counter to the next multiple
    (by fewer bytes than the alignment). Bytes put into code are executed
    without effect on any register; bytes put into data are zero; nothing
    but the counter changes if the segment has no contents yet. *)
Theorem C29_align : forall md o s a, seg_ok s ->
  (exists j, 0 <= j <= 30 /\ asked s a = 2 ^ j) ->
  (flat_grp md = None -> pass1 md = false \/ asked s a <= seg_bytes s) ->
  exists w f, AlignDirective md o s a = Ok (w, f) /\
    0 <= filler_len f < asked s a /\ (loc s + filler_len f) mod asked s a = 0 /\ filler_ok o s f /\
    (w = true <-> pass1 md = true /\ flat_grp md = Some false /\ o <> USE64 /\ asked s a > seg_bytes s).
Proof. exact align_directive_ok. Qed.
Print Assumptions C29_align.

(** A constant that is not a power of 2 is an error. *)
Theorem C29_align_rejects : forall md o s v, seg_ok s -> - 2 ^ 31 <= v <= 2 ^ 30 -> (forall j, 0 <= j -> v <> 2 ^ j) ->
  AlignDirective md o s (ArgConst v) = Err.
Proof. exact align_directive_rejects. Qed.
Print Assumptions C29_align_rejects.

(** The internal alignment by a power of 2 (procedures, .data?, labels). *)
Theorem C29_align_internal : forall o s k, 0 <= loc s -> 0 <= k <= 30 ->
  exists f, AlignCurrOffset o s k = Ok f /\
    0 <= filler_len f < 2 ^ k /\ (loc s + filler_len f) mod 2 ^ k = 0 /\ filler_ok o s f.
Proof. exact align_curr_ok. Qed.
Print Assumptions C29_align_internal.

(** Padding is emitted exactly if the segment has contents. *)
Theorem C29_fill : forall o s size, 0 <= size ->
  exists f, fill_in_objfile_space o s size = Ok f /\ filler_len f = size /\ filler_ok o s f /\
    (written s = false <-> f = Skip size).
Proof.
  intros o s size H. destruct (fill_ok o s size H) as (f & E & L & O). exists f. split; [exact E|]. split; [exact L|].
  split; [exact O|]. unfold fill_in_objfile_space in E. destruct (written s); cbn [negb] in E.
  - split; [discriminate|]. intros ->. cbn [filler_ok] in O. destruct (is_code s); cbn [negb] in E; [|discriminate].
    destruct (nop_fill _ _ _); cbn [bindr] in E; discriminate.
  - injection E as <-. split; reflexivity.
Qed.
Print Assumptions C29_fill.

(** Not for every program: without FLAT group an alignment above the one of
    the segment dereferences NULL in pass 1 (posndir.c:255). *)
Theorem C29_align_no_flat_refuted :
  exists md o s, seg_ok s /\ flat_grp md = None /\ AlignDirective md o s (ArgConst 16) = UB.
Proof.
  exists {| flat_grp := None; pass1 := true |}, USE16, {| written := true; is_code := true; alignment := 1; loc := 5 |}.
  split; [split; cbn; lia|]. split; reflexivity.
Qed.
Print Assumptions C29_align_no_flat_refuted.

(** Nor are all bad constants rejected: the upper half is ignored, and the
    search for a power of 2 overflows above 2^30. *)
Theorem C29_align_value_refuted :
  forall md o s, seg_ok s ->
    AlignDirective md o s (ArgConst (2 ^ 32 + 4)) = AlignDirective md o s (ArgConst 4) /\
    (forall v, 2 ^ 30 < v < 2 ^ 31 -> AlignDirective md o s (ArgConst v) = UB).
Proof.
  intros md o s SO. split; [reflexivity|]. intros v V. unfold AlignDirective, align_value_of. cbv zeta.
  rewrite (swrap_small 32 v) by (change (2 ^ (32 - 1)) with 2147483648; change (2 ^ 31) with 2147483648 in V; change (2 ^ 30) with 1073741824 in V; lia).
  rewrite power_overflows by lia. reflexivity.
Qed.
Print Assumptions C29_align_value_refuted.

Example align_demo :
  AlignDirective {| flat_grp := Some true; pass1 := true |} USE32
    {| written := true; is_code := true; alignment := 4; loc := 0x107 |} (ArgConst 16)
  = Ok (false, Emit [0x8d; 0xa4; 0x24; 0; 0; 0; 0; 0x8b; 0xff]).
Proof. reflexivity. Qed.
Example exec_demo : run 2 M32 [0x8b; 0xff] (fun x => x) <> None /\ run 2 M32 [0x8b; 0xc7] (fun x => x) <> None /\
  ~ executable_padding M32 [0x8b; 0xc7].
Proof.
  split; [discriminate|]. split; [discriminate|]. intros X.
  destruct (X (fun x => if x =? 7 then 1 else 0)) as (r & E & K).
  - intros x. destruct (x =? 7); vm_compute; split; congruence.
  - injection E as <-. specialize (K 0). discriminate.
Qed.
