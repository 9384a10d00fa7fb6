(** C28: memory operands encode to the address written (first code generator). *)
From Verif Require Import Base Mem_Model Mem_Spec Mem_Proofs.

(** For every operand and every instruction form, the processor that decodes the bytes written finds the
    register field and operand size of the instruction, an address of the size, value (whatever the
    registers hold, and whatever the linker stores) and segment that were written, and the rest behind;
    the fixup is of the kind needed. *)
Theorem C28_address : forall e f opsiz opcode o k, operand_ok e o -> form_ok (e_ofs e) f -> opcode_ok (e_ofs e) opcode ->
  assemble e f opsiz opcode o = Ok k -> forall v l rest, linked (e_ofs e) k (o_disp o) v l ->
  exists a, decode (e_ofs e) opcode (l ++ rest) = Some (form_field f, form_w f, a, rest) /\
    a_size a = asize e o /\ (forall rf ip, addr rf ip a = written e o v rf ip) /\ same_seg e (a_seg a) (source_seg e o) /\ option_map fst (k_fix k) = source_fix e o.
Proof. exact assemble_decode. Qed.
Print Assumptions C28_address.

(** Exactly the operands that can be encoded are accepted. *)
Theorem C28_accepted : forall e f opsiz opcode o, operand_ok e o -> form_ok (e_ofs e) f ->
  ((exists k, assemble e f opsiz opcode o = Ok k) <-> encodable e o) /\ assemble e f opsiz opcode o <> UB.
Proof. exact assemble_accepts. Qed.
Print Assumptions C28_accepted.

(** ** Examples *)
Definition e64 := {| e_ofs := USE64; e_386 := true; e_dofs := USE64; e_chk := None; e_flat := true |}.
Definition e32 := {| e_ofs := USE32; e_386 := true; e_dofs := USE32; e_chk := None; e_flat := true |}.
Definition e16 := {| e_ofs := USE16; e_386 := true; e_dofs := USE16; e_chk := Some 0; e_flat := false |}.
Ltac okop := constructor; cbn; intros; repeat match goal with H : Some _ = Some _ |- _ => injection H as <- end; unfold in_seg; cbn; intuition (try lia; try congruence).
(** mov rax, [r13+r12*4+10h] *)
Definition o1 := {| o_base := Some (R64 13); o_index := Some (R64 12); o_scale := 4; o_disp := 16; o_sym := None; o_over := None |}.
Lemma o1_ok : operand_ok e64 o1.
Proof. okop. Qed.
Example C28_example1 : assemble e64 (FRM (R64 0)) false [0x8B] o1 = Ok {| k_bytes := [0x4B; 0x8B; 0x44; 0xA5; 0x10]; k_fix := None |} /\ operand_ok e64 o1 /\ encodable e64 o1 /\ form_ok USE64 (FRM (R64 0)) /\ opcode_ok USE64 [0x8B].
Proof.
  split; [vm_compute; reflexivity|]. split; [exact o1_ok|]. split; [|split].
  - vm_compute. intuition congruence.
  - cbn. split; [congruence|]. split; [lia|reflexivity].
  - exists 0x8B, []. repeat split; try congruence. intros [_ H]. lia.
Qed.
(** 16-bit code: inc word ptr [si+bp+sym], the symbol's segment assumed for ES; 2 bytes are left to the linker *)
Definition o2 := {| o_base := Some (R16 6); o_index := Some (R16 5); o_scale := 0; o_disp := 2; o_sym := Some USE16; o_over := None |}.
Lemma o2_ok : operand_ok e16 o2.
Proof. okop. Qed.
Example C28_example2 : assemble e16 (FM 0 false) false [0xFF] o2 = Ok {| k_bytes := [0x26; 0xFF; 0x82; 2; 0]; k_fix := Some (FIX_OFF16, 3) |} /\ operand_ok e16 o2 /\ encodable e16 o2.
Proof. split; [vm_compute; reflexivity|]. split; [exact o2_ok|]. vm_compute. intuition congruence. Qed.
(** 64-bit code: add [sym], r9d is relative to RIP *)
Definition o3 := {| o_base := None; o_index := None; o_scale := 0; o_disp := 0; o_sym := Some USE64; o_over := None |}.
Lemma o3_ok : operand_ok e64 o3.
Proof. okop. Qed.
Example C28_example3 : assemble e64 (FMR (R32 9)) false [0x01] o3 = Ok {| k_bytes := [0x44; 0x01; 0x0D; 0; 0; 0; 0]; k_fix := Some (FIX_RELOFF32, 3) |} /\ operand_ok e64 o3 /\ encodable e64 o3.
Proof. split; [vm_compute; reflexivity|]. split; [exact o3_ok|]. vm_compute. intuition congruence. Qed.
(** what is rejected: [rax+rsp], [eax*3], and in 16-bit code a displacement of 10001h *)
Example C28_rejected :
  assemble e64 (FM 0 false) false [0xFF] {| o_base := Some (R64 0); o_index := Some (R64 4); o_scale := 0; o_disp := 0; o_sym := None; o_over := None |} = Err /\
  assemble e32 (FM 0 false) false [0xFF] {| o_base := None; o_index := Some (R32 0); o_scale := 3; o_disp := 0; o_sym := None; o_over := None |} = Err /\
  assemble e16 (FM 0 false) false [0xFF] {| o_base := None; o_index := None; o_scale := 0; o_disp := 0x10001; o_sym := None; o_over := Some 3 |} = Err.
Proof. vm_compute. auto. Qed.

(** ** Operands that are accepted and encoded wrongly *)
Definition plain (b x : option reg) (s d : Z) := {| o_base := b; o_index := x; o_scale := s; o_disp := d; o_sym := None; o_over := None |}.
(** what the processor finds, when registers hold 2^n *)
Definition found (e : env) (o : memop) (rest : list Z) : option (Z * list Z) :=
  match assemble e (FM 0 false) false [0xFF] o with
  | Ok k => match decode (e_ofs e) [0xFF] (k_bytes k ++ rest) with Some (_, _, a, r) => Some (addr (fun n => 2 ^ n) 1000000 a, r) | None => None end
  | _ => None
  end.
Definition meant (e : env) (o : memop) : Z := written e o (o_disp o) (fun n => 2 ^ n) 1000000.

(** 32-bit code: inc word ptr [si] has a byte too much, that the processor takes for the next instruction *)
Theorem C28_si_refuted : exists o, o_base o = Some (R16 6) /\ o_index o = None /\ encodable e32 o /\
  found e32 o [0x90] = Some (meant e32 o, [0; 0x90]).
Proof. exists (plain (Some (R16 6)) None 0 0). repeat split; vm_compute; congruence. Qed.
Print Assumptions C28_si_refuted.
(** 16-bit code: [ax] is encoded as [bx+si], [sp] as [si] *)
Theorem C28_reg16_refuted :
  found e16 (plain (Some (R16 0)) None 0 0) [] = Some (2 ^ 3 + 2 ^ 6, []) /\ meant e16 (plain (Some (R16 0)) None 0 0) = 2 ^ 0 /\
  found e16 (plain (Some (R16 4)) None 0 0) [] = Some (2 ^ 6, []) /\ meant e16 (plain (Some (R16 4)) None 0 0) = 2 ^ 4.
Proof. vm_compute. auto. Qed.
Print Assumptions C28_reg16_refuted.
(** 64-bit code: [rax+80000000h] is encoded as [rax-80000000h] *)
Theorem C28_disp64_refuted :
  found e64 (plain (Some (R64 0)) None 0 0x80000000) [] = Some ((1 - 0x80000000) mod 2 ^ 64, []) /\ meant e64 (plain (Some (R64 0)) None 0 0x80000000) = 1 + 0x80000000.
Proof. vm_compute. auto. Qed.
Print Assumptions C28_disp64_refuted.
(** 64-bit code: [rip+rax] is encoded as [rax*1+disp32], RIP is lost *)
Theorem C28_rip_index_refuted :
  found e64 (plain (Some RIP) (Some (R64 0)) 1 0) [1; 0; 0; 0] = Some (2 ^ 0, [1; 0; 0; 0]) /\ meant e64 (plain (Some RIP) (Some (R64 0)) 1 0) = 1000001.
Proof. vm_compute. auto. Qed.
Print Assumptions C28_rip_index_refuted.
(** 64-bit code: [rip+sym] has the absolute offset of the symbol stored in its displacement *)
Theorem C28_rip_symbol_refuted :
  match assemble e64 (FM 0 false) false [0xFF] {| o_base := Some RIP; o_index := None; o_scale := 0; o_disp := 0; o_sym := Some USE64; o_over := None |} with
  | Ok k => k_fix k = Some (FIX_OFF32, 2) | _ => False end.
Proof. vm_compute. auto. Qed.
Print Assumptions C28_rip_symbol_refuted.
(** 64-bit code: [eax+sym], the symbol in a 32-bit segment, has a 16-bit fixup for its 32-bit displacement *)
Theorem C28_sym32_refuted :
  match assemble e64 (FM 0 false) false [0xFF] {| o_base := Some (R32 0); o_index := None; o_scale := 0; o_disp := 0; o_sym := Some USE32; o_over := None |} with
  | Ok k => k_fix k = Some (FIX_OFF16, 3) /\ k_bytes k = [0x67; 0xFF; 0x80; 0; 0; 0; 0] | _ => False end.
Proof. vm_compute. auto. Qed.
Print Assumptions C28_sym32_refuted.
(** 64-bit code: [si*2] is encoded as [esi*2] *)
Theorem C28_index16_refuted :
  found e64 (plain None (Some (R16 6)) 2 0) [] = Some (2 ^ 7, []) /\ match assemble e64 (FM 0 false) false [0xFF] (plain None (Some (R16 6)) 2 0) with Ok k => k_bytes k = [0x67; 0xFF; 0x04; 0x75; 0; 0; 0; 0] | _ => False end.
Proof. vm_compute. auto. Qed.
Print Assumptions C28_index16_refuted.
