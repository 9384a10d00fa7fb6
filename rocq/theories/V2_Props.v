(** C39-C42: instructions assembled by the second code generator (codegenv2.c) decode, by the manual's rules, as what was written. *)
From Coq Require Import String Ascii.
From Verif Require Import Base Mem_Model Mem_Spec V2_Model V2_Table V2_Spec V2Bits_Proofs V2Row_Proofs V2Type_Proofs V2Gen_Proofs V2Asm_Proofs V2Sel_Proofs V2Acc_Proofs V2Ref_Proofs.
Open Scope list_scope.
Local Opaque tab regs row_entry lookup InstrTableV2.

(** ** Material for the examples *)
Definition h0 : string -> list optype -> nat := fun _ _ => 0%nat.
Definition asm (name : string) (c : ci) (l : list opnd) : option (res out) := CodeGenV2 h0 (BuildInstructionTable h0 InstrTableV2) name false c l.
Definition bytes_of (r : option (res out)) : option (list Z) := match r with Some (Ok o) => Some (o_bytes o) | _ => None end.
Definition cx (mode : ofssize) (ev : bool) (deco broad sae : Z) : ci := {| c_mode := mode; c_evex := ev; c_deco := deco; c_broad := broad; c_sae := sae; c_ins := None; c_seg := None; c_stray := false |}.
Definition c64 := cx USE64 false 0 0 0.
Definition c32 := cx USE32 false 0 0 0.
Definition e64 := cx USE64 true 0 0 0.
Definition e32 := cx USE32 true 0 0 0.
Definition quad (s : msize) : bool := match s with Sz64 => true | _ => false end.
Definition mm (sz : msize) (b i : option reg) (sc v : Z) : memx :=
  {| x_size := sz; x_base := b; x_idx := i; x_scale := sc; x_value := v; x_sym := None; x_addr := true; x_indirect := true; x_fix := false; x_q := quad sz |}.
Definition lab (sz : msize) (b i : option reg) (sc v : Z) : memx :=
  {| x_size := sz; x_base := b; x_idx := i; x_scale := sc; x_value := v; x_sym := Some false; x_addr := true; x_indirect := match b, i with None, None => false | _, _ => true end; x_fix := true; x_q := quad sz |}.
Definition r64 (n : Z) : option reg := Some (K64, n).
Definition r32 (n : Z) : option reg := Some (K32, n).
Definition r16 (n : Z) : option reg := Some (K16, n).
Definition row_of (name : string) (types : list optype) : row :=
  match find (fun d => String.eqb (d_name d) name && types_eqb (d_types d) types) InstrTableV2 with Some d => d | None => nth 0 InstrTableV2 (I "" [] GP0 [] [] [] 0 0 [] 0 0 0 false [] NO_DST NO_PFX None NoMem) end.

(** to show that the conditions hold of concrete operands *)
Ltac fin := solve [ tauto | discriminate | congruence | lia | (repeat split; (tauto || congruence || lia)) | (left; lia) | auto 8 ].
Ltac step := match goal with
  | H : _ \/ _ |- _ => destruct H as [H | H]
  | H : False |- _ => destruct H
  | H : _ /\ _ |- _ => destruct H
  | H : OReg _ = OMem _ |- _ => discriminate H
  | H : OImm _ _ _ = OMem _ |- _ => discriminate H
  | H : OMem _ = OImm _ _ _ |- _ => discriminate H
  | H : OReg _ = OImm _ _ _ |- _ => discriminate H
  | H : OReg (?a, ?b) = OReg (?k, ?n) |- _ => assert (k = a /\ n = b) by (split; congruence); clear H
  | H : OMem ?a = OMem ?b |- _ => assert (a = b) by congruence; clear H; subst b
  | H : Some ?a = Some ?b |- _ => assert (a = b) by congruence; clear H; subst b
  end.
Ltac crush := cbv [mm lab r64 r32 r16 quad c64 c32 e64 e32 cx] in *; cbn in *; intros; repeat step; cbn in *; try fin.
Ltac memok := constructor; crush.
Ltac opok := match goal with
  | |- opnd_ok _ _ (OMem _) => split; [memok|crush]
  | |- _ => crush
  end.
Ltac wok d := let d' := eval vm_compute in d in change d with d'; constructor;
  match goal with
  | |- Forall (opnd_ok _ _) _ => repeat (apply Forall_cons; [opok|]); apply Forall_nil
  | |- context [Forall] => intros; try discriminate; repeat constructor; discriminate
  | |- _ => crush
  end.
Ltac assembles d := let d' := eval vm_compute in d in change d with d'; eexists; split; [vm_compute; reflexivity|]; split; [reflexivity|]; split; [reflexivity|]; crush.
Lemma row_of_in name types : In (row_of name types) InstrTableV2.
Proof.
  unfold row_of. destruct (find _ InstrTableV2) as [d|] eqn:E; [apply find_some in E; tauto|]. apply nth_In. apply Nat.ltb_lt. vm_compute. reflexivity.
Qed.

(** ** General instructions and SSE *)
Theorem C39_decodes d c l o v bytes : In d InstrTableV2 -> l <> [] -> vex_used d c = false -> evex_used d c = false -> written_ok d c l ->
  gen d c l = Ok o -> linked d c l o v bytes -> decodes_to d c l v bytes.
Proof. intros A B _ _. exact (gen_decodes d c l o v bytes A B). Qed.
Print Assumptions C39_decodes.
(** mov ecx,[rax+rbx*4+8] *)
Example C39_decodes_example : let d := row_of "mov" [T_R32; T_M_ANY] in let l := [OReg (K32, 1); OMem (mm SzNone (r64 0) (r64 3) 4 8)] in
  In d InstrTableV2 /\ vex_used d c64 = false /\ evex_used d c64 = false /\ written_ok d c64 l /\
  exists o, gen d c64 l = Ok o /\ o_bytes o = [0x8B; 0x4C; 0x98; 0x08] /\ linked d c64 l o x_value (o_bytes o).
Proof.
  cbv zeta. split; [apply row_of_in|]. split; [reflexivity|]. split; [reflexivity|]. split.
  - wok (row_of "mov" [T_R32; T_M_ANY]).
  - assembles (row_of "mov" [T_R32; T_M_ANY]).
Qed.
(** mov fs:label,10 : the displacement is that of the linker *)
Example C39_decodes_example_2 : let d := row_of "mov" [T_M32; T_IMM8] in let c := {| c_mode := USE32; c_evex := false; c_deco := 0; c_broad := 0; c_sae := 0; c_ins := None; c_seg := Some 4; c_stray := false |} in
  let l := [OMem (lab Sz32 None None 0 4); OImm I8 10 false] in
  In d InstrTableV2 /\ vex_used d c = false /\ evex_used d c = false /\ written_ok d c l /\
  exists o, gen d c l = Ok o /\ o_bytes o = [0x64; 0xC7; 0x05; 4; 0; 0; 0; 10; 0; 0; 0] /\ linked d c l o (fun _ => 0x402004) [0x64; 0xC7; 0x05; 0x04; 0x20; 0x40; 0; 10; 0; 0; 0].
Proof.
  cbv zeta. split; [apply row_of_in|]. split; [reflexivity|]. split; [reflexivity|]. split.
  - wok (row_of "mov" [T_M32; T_IMM8]).
  - eexists. split; [vm_compute; reflexivity|]. split; [reflexivity|]. exists 0x402004. split; [reflexivity|]. split; [discriminate|reflexivity].
Qed.
(** instructions without operands: their bytes are those of the manual, in every mode listed *)
Theorem C39_plain name bytes : In (name, bytes) plain -> forall hash word c, In (c_mode c) (modes_of name) -> c_evex c = false -> c_ins c = None -> c_seg c = None ->
  CodeGenV2 hash (BuildInstructionTable hash InstrTableV2) name word c [] = Some (Ok {| o_bytes := bytes; o_dfix := None; o_ifix := None; o_oob := false |}).
Proof. exact (plain_assembled name bytes). Qed.
Print Assumptions C39_plain.
Example C39_plain_example : In ("fyl2x"%string, [0xD9; 0xF1]) plain /\ In (c_mode c64) (modes_of "fyl2x") /\ asm "FYL2X" c64 [] = asm "fyl2x" c64 [] /\ bytes_of (asm "fyl2x" c64 []) = Some [0xD9; 0xF1].
Proof. split; [|split; [right; left; reflexivity|split; vm_compute; reflexivity]]. unfold plain. repeat (try (left; reflexivity); right). Qed.

(** the mandatory prefixes and escape bytes meant by the names in the table *)
Definition prefix_meant (p : mprefix) : list Z :=
  match p with
  | NO_PFX => [] | PFX_0xF => [0x0F] | PFX_0x66F => [0x66; 0x0F] | PFX_0x66F38 => [0x66; 0x0F; 0x38] | PFX_0x66F3A => [0x66; 0x0F; 0x3A]
  | PFX_0x0F38 => [0x0F; 0x38] | PFX_0xF3F38 => [0xF3; 0x0F; 0x38] | PFX_0xF2F38 => [0xF2; 0x0F; 0x38] | PFX_0xF30F => [0xF3; 0x0F] | PFX_0xF20F => [0xF2; 0x0F]
  end.
(** they are written for every row (here without operands), also for those the table does not have yet *)
Theorem C39_mandatory d c : plain_row d = true -> c_evex c = false -> c_ins c = None -> c_seg c = None ->
  gen d c [] = Ok {| o_bytes := prefix_meant (d_pfx d) ++ firstn (d_nop d) (d_opc d); o_dfix := None; o_ifix := None; o_oob := false |}.
Proof. intros H1 H2 H3 H4. rewrite (plain_gen d c H1 H2 H3 H4). destruct (d_pfx d); reflexivity. Qed.
Print Assumptions C39_mandatory.
Example C39_mandatory_example : let d := I "endbr" [] GP0 [] [] [] 0 1 [0x10; 0; 0] 0 0 0 false [X64] NO_DST PFX_0xF20F None NoMem in
  plain_row d = true /\ gen d c64 [] = Ok {| o_bytes := [0xF2; 0x0F; 0x10]; o_dfix := None; o_ifix := None; o_oob := false |}.
Proof. split; reflexivity. Qed.

(** LOCK, REP and BND: written in front of the instruction (behind an address size prefix) if the row allows them, otherwise refused *)
Definition prefix_written (p : insprefix) : Z := match p with P_LOCK => 0xF0 | P_REPNE | P_REPNZ | P_BND => 0xF2 | P_REP | P_REPE | P_REPZ => 0xF3 end.
Definition prefix_flag (p : insprefix) : flag := match p with P_LOCK => ALLOW_LOCK | P_BND => ALLOW_BND | _ => ALLOW_REP end.
Definition no_ins (c : ci) : ci := {| c_mode := c_mode c; c_evex := c_evex c; c_deco := c_deco c; c_broad := c_broad c; c_sae := c_sae c; c_ins := None; c_seg := c_seg c; c_stray := c_stray c |}.
Theorem C39_prefix d c l p o : c_ins c = Some p -> gen d (no_ins c) l = Ok o ->
  if has (prefix_flag p) (d_flags d) then
    exists o' a b, gen d c l = Ok o' /\ (a = [] \/ a = [0x67]) /\ o_bytes o = a ++ b /\ o_bytes o' = a ++ [prefix_written p] ++ b /\
      o_dfix o' = option_map (Z.add 1) (o_dfix o) /\ o_ifix o' = option_map (Z.add 1) (o_ifix o) /\ o_oob o' = o_oob o
  else gen d c l = Err.
Proof.
  intros Hp. destruct c as [mode ev deco broad sae ins seg stray]. cbn [c_ins] in Hp. subst ins. unfold no_ins. cbn [c_mode c_evex c_deco c_broad c_sae c_ins c_seg c_stray].
  set (c1 := {| c_mode := mode; c_evex := ev; c_deco := deco; c_broad := broad; c_sae := sae; c_ins := None; c_seg := seg; c_stray := stray |}).
  set (c2 := {| c_mode := mode; c_evex := ev; c_deco := deco; c_broad := broad; c_sae := sae; c_ins := Some p; c_seg := seg; c_stray := stray |}).
  intros H. unfold gen in H |- *. change (c_broad c1) with broad in H. change (c_broad c2) with broad.
  change (BuildMemoryEncoding d (the_mem d l) c2 (PromoteBroadcast d broad)) with (BuildMemoryEncoding d (the_mem d l) c1 (PromoteBroadcast d broad)).
  change (evex_ok d l c2 (PromoteBroadcast d broad)) with (evex_ok d l c1 (PromoteBroadcast d broad)).
  change (seg_prefix d c2) with (seg_prefix d c1). change (c_evex c2) with (c_evex c1). change (c_mode c2) with (c_mode c1). change (c_ins c2) with (Some p). change (c_ins c1) with (@None insprefix) in H.
  destruct (match d_mem d with NoMem => Ok no_menc | _ => BuildMemoryEncoding d (the_mem d l) c1 (PromoteBroadcast d broad) end) as [n| |]; cbn [bindr] in H |- *; try discriminate.
  destruct (BuildModRM d l) as [mr need].
  change (evex_fields d l c2 (PromoteBroadcast d broad) (n_B n) (n_X n) (n_RR n)) with (evex_fields d l c1 (PromoteBroadcast d broad) (n_B n) (n_X n) (n_RR n)).
  match type of H with bindr ?a _ = _ => destruct a as [vex| |]; cbn [bindr] in H |- *; try discriminate end.
  destruct (c_evex c1 && _); [discriminate|]. cbn [ins_prefix bindr] in H |- *.
  destruct (seg_prefix d c1) as [sg| |]; cbn [bindr] in H |- *; try discriminate. cbv zeta in H |- *.
  assert (G : forall a b : out, Ok a = Ok b -> a = b) by congruence. apply G in H. subst o. cbn [o_bytes o_dfix o_ifix o_oob].
  assert (Ip : ins_prefix d (Some p) = if has (prefix_flag p) (d_flags d) then Ok [prefix_written p] else Err) by (destruct p; reflexivity).
  unfold ins_prefix in Ip. rewrite Ip. clear Ip. destruct (has (prefix_flag p) (d_flags d)); [|reflexivity]. cbn [bindr].
  eexists. exists (if n_aso n then [0x67] else []). eexists. split; [reflexivity|]. split; [destruct (n_aso n); auto|]. cbn [o_bytes o_dfix o_ifix o_oob].
  rewrite <- !app_assoc. split; [cbn [app]; reflexivity|]. split; [cbn [app]; reflexivity|].
  assert (Zl : forall x : list Z, zlen ((if n_aso n then [0x67] else []) ++ [prefix_written p] ++ x) = 1 + zlen ((if n_aso n then [0x67] else []) ++ x)).
  { intros x. unfold zlen. rewrite !app_length. cbn [length]. lia. }
  rewrite Zl. cbn [app].
  split; [|split; [|reflexivity]].
  - match goal with |- (if ?b then _ else _) = _ => destruct b end; reflexivity.
  - match goal with |- (if ?b then _ else _) = _ => destruct b end; cbn [option_map]; [f_equal; lia|reflexivity].
Qed.
Print Assumptions C39_prefix.
Example C39_prefix_example : let d := I "xchg" [T_M_ANY; T_R32] GP0 [ALLOW_LOCK; F_MODRM; F_MODRM_REG] [] [] 1 1 [0x87; 0; 0] 4 1 0 false [X64] RM_DST NO_PFX None (MemOpnd 0) in
  let c := {| c_mode := USE64; c_evex := false; c_deco := 0; c_broad := 0; c_sae := 0; c_ins := Some P_LOCK; c_seg := None; c_stray := false |} in
  let l := [OMem (mm Sz32 (r32 3) None 0 0); OReg (K32, 1)] in
  bytes_of (Some (gen d (no_ins c) l)) = Some [0x67; 0x87; 0x0B] /\ bytes_of (Some (gen d c l)) = Some [0x67; 0xF0; 0x87; 0x0B].
Proof. split; reflexivity. Qed.

(** the fixup of a constant: writing k at its position gives the instruction with the constant k, up to the size of the field *)
Theorem C39_fixup d c l o p k : In d InstrTableV2 -> (map MatchOperand l = d_types d \/ map DemoteOperand (map MatchOperand l) = d_types d) ->
  gen d c l = Ok o -> o_ifix o = Some p ->
  0 <= p <= zlen (o_bytes o) /\
  exists o', gen d c (map (set_imm k) l) = Ok o' /\ o_dfix o' = o_dfix o /\ o_ifix o' = o_ifix o /\
             o_bytes o' = firstn (Z.to_nat p) (o_bytes o) ++ le_bytes (length (o_bytes o) - Z.to_nat p) k.
Proof. exact (gen_imm d c l o p k). Qed.
Print Assumptions C39_fixup.
(** mov dword ptr [rax+4],offset label *)
Example C39_fixup_example : let d := row_of "mov" [T_M32; T_IMM32] in let l := [OMem (mm Sz32 (r64 0) None 0 4); OImm I32 0 true] in
  In d InstrTableV2 /\ map MatchOperand l = d_types d /\ exists o o', gen d c64 l = Ok o /\ o_ifix o = Some 3 /\ o_bytes o = [0xC7; 0x40; 4; 0; 0; 0; 0] /\
    gen d c64 (map (set_imm 0x1234) l) = Ok o' /\ o_bytes o' = [0xC7; 0x40; 4; 0x34; 0x12; 0; 0].
Proof. cbv zeta. split; [apply row_of_in|]. split; [vm_compute; reflexivity|]. do 2 eexists. split; [vm_compute; reflexivity|]. split; [reflexivity|]. split; [reflexivity|]. split; [vm_compute; reflexivity|reflexivity]. Qed.

(** ** VEX *)
Theorem C40_decodes d c l o v bytes : In d InstrTableV2 -> l <> [] -> vex_used d c = true -> written_ok d c l ->
  gen d c l = Ok o -> linked d c l o v bytes -> decodes_to d c l v bytes.
Proof. intros A B _. exact (gen_decodes d c l o v bytes A B). Qed.
Print Assumptions C40_decodes.
(** vmulps ymm9,ymm2,[r8+rbx*2+1000h] *)
Example C40_decodes_example : let d := row_of "vmulps" [T_R_YMM; T_R_YMM; T_M_ANY] in let l := [OReg (KY, 9); OReg (KY, 2); OMem (mm SzNone (r64 8) (r64 3) 2 0x1000)] in
  In d InstrTableV2 /\ vex_used d c64 = true /\ written_ok d c64 l /\
  exists o, gen d c64 l = Ok o /\ o_bytes o = [0xC4; 0x41; 0x6C; 0x59; 0x8C; 0x58; 0; 0x10; 0; 0] /\ linked d c64 l o x_value (o_bytes o).
Proof.
  cbv zeta. split; [apply row_of_in|]. split; [vm_compute; reflexivity|]. split.
  - wok (row_of "vmulps" [T_R_YMM; T_R_YMM; T_M_ANY]).
  - assembles (row_of "vmulps" [T_R_YMM; T_R_YMM; T_M_ANY]).
Qed.
(** vgatherdps ymm0,[rax+ymm10*4],ymm2 *)
Example C40_decodes_example_2 : let d := row_of "vgatherdps" [T_R_YMM; T_M_ANY; T_R_YMM] in let l := [OReg (KY, 0); OMem (mm SzNone (r64 0) (Some (KY, 10)) 4 0); OReg (KY, 2)] in
  In d InstrTableV2 /\ vex_used d c64 = true /\ written_ok d c64 l /\
  exists o, gen d c64 l = Ok o /\ o_bytes o = [0xC4; 0xA2; 0x6D; 0x92; 0x04; 0x90] /\ linked d c64 l o x_value (o_bytes o).
Proof.
  cbv zeta. split; [apply row_of_in|]. split; [vm_compute; reflexivity|]. split.
  - wok (row_of "vgatherdps" [T_R_YMM; T_M_ANY; T_R_YMM]).
  - assembles (row_of "vgatherdps" [T_R_YMM; T_M_ANY; T_R_YMM]).
Qed.

(** ** EVEX *)
Theorem C41_decodes d c l o v bytes : In d InstrTableV2 -> l <> [] -> evex_used d c = true -> written_ok d c l ->
  gen d c l = Ok o -> linked d c l o v bytes -> decodes_to d c l v bytes.
Proof. intros A B _. exact (gen_decodes d c l o v bytes A B). Qed.
Print Assumptions C41_decodes.
(** vmulps zmm1{k1}{z},zmm18,[rax+128] *)
Example C41_decodes_example : let d := row_of "vmulps" [T_R_ZMM; T_R_ZMM; T_M_ANY] in let c := cx USE64 true 0x81 0 0 in let l := [OReg (KZ, 1); OReg (KZ, 18); OMem (mm SzNone (r64 0) None 0 128)] in
  In d InstrTableV2 /\ evex_used d c = true /\ written_ok d c l /\
  exists o, gen d c l = Ok o /\ o_bytes o = [0x62; 0xF1; 0x6C; 0xC1; 0x59; 0x48; 0x02] /\ linked d c l o x_value (o_bytes o).
Proof.
  cbv zeta. split; [apply row_of_in|]. split; [vm_compute; reflexivity|]. split.
  - wok (row_of "vmulps" [T_R_ZMM; T_R_ZMM; T_M_ANY]).
  - assembles (row_of "vmulps" [T_R_ZMM; T_R_ZMM; T_M_ANY]). split; [reflexivity|]. intros _. right. left. vm_compute. auto.
Qed.

(** ** The choice of the row *)
Theorem C42_lookup hash name types memreg c src dst :
  first_fit (fits name types memreg c src dst) InstrTableV2 (LookupInstruction hash (BuildInstructionTable hash InstrTableV2) name types memreg c src dst).
Proof. exact (lookup_first hash name types memreg c src dst). Qed.
Print Assumptions C42_lookup.
Example C42_lookup_example : LookupInstruction h0 (BuildInstructionTable h0 InstrTableV2) "VMULPS" [T_R_YMM; T_R_YMM; T_M_ANY] true c64 2 9 = Some (row_of "vmulps" [T_R_YMM; T_R_YMM; T_M_ANY]) /\
  LookupInstruction h0 (BuildInstructionTable h0 InstrTableV2) "vmulps" [T_R8] false c64 2 9 = None.
Proof. split; vm_compute; reflexivity. Qed.
Theorem C42_choice hash name c l : Forall flags_ok l ->
  match select hash (BuildInstructionTable hash InstrTableV2) name c l with
  | Some d => chosen InstrTableV2 name c l (Some d) /\ ~ short_address name c l d
  | None => chosen InstrTableV2 name c l None \/ exists d, chosen InstrTableV2 name c l (Some d) /\ short_address name c l d
  end.
Proof. exact (select_spec hash name c l). Qed.
Print Assumptions C42_choice.
Example C42_choice_example : let l := [OReg (K32, 1); OMem (mm SzNone (r64 0) (r64 3) 4 8)] in Forall flags_ok l /\ select h0 (BuildInstructionTable h0 InstrTableV2) "mov" c64 l = Some (row_of "mov" [T_R32; T_M_ANY]).
Proof. cbv zeta. split; [repeat constructor; crush|vm_compute; reflexivity]. Qed.
(** the types looked up are those which take the operand *)
Theorem C42_types o t : typeable o -> (takes t o <-> t = MatchOperand o \/ t = DemoteOperand (MatchOperand o)).
Proof. exact (types_ok o t). Qed.
Print Assumptions C42_types.
Example C42_types_example : typeable (OReg (K16, 2)) /\ takes T_R16_DX (OReg (K16, 2)) /\ takes T_R16 (OReg (K16, 2)) /\ ~ takes T_R16E (OReg (K16, 2)).
Proof. split; [split; discriminate|]. split; [reflexivity|]. split; [exists 2; split; [reflexivity|lia]|]. intros (n & H & L). assert (n = 2) by congruence. lia. Qed.
(** a constant beside an operand of one byte, or of a bit test, is one of a byte; nothing else changes *)
Definition bit_test (name : string) : Prop := In (lowers name) ["bt"; "btc"; "btr"; "bts"]%string.
Definition byte_place (o : opnd) : Prop := match o with OReg (k, _) => k = K8 \/ k = K8H \/ k = K8U | OMem m => x_size m = SzNone \/ x_size m = Sz8 | _ => False end.
Definition small_constant (word : bool) (o : opnd) : Prop := match o with OImm t v _ => word = false /\ (t = I8 \/ t = I16) /\ -255 <= swrap 32 v <= 255 | _ => False end.
Definition as_byte (o : opnd) : opnd :=
  match o with
  | OMem m => OMem {| x_size := Sz8; x_base := x_base m; x_idx := x_idx m; x_scale := x_scale m; x_value := x_value m; x_sym := x_sym m; x_addr := x_addr m; x_indirect := x_indirect m; x_fix := x_fix m; x_q := x_q m |}
  | OImm _ v f => OImm I8 v f
  | o => o
  end.
Lemma bit_test_ok name : same_name name "bt" || same_name name "btc" || same_name name "btr" || same_name name "bts" = true <-> bit_test name.
Proof.
  unfold bit_test, same_name. change (lowers "bt") with "bt"%string. change (lowers "btc") with "btc"%string. change (lowers "btr") with "btr"%string. change (lowers "bts") with "bts"%string.
  rewrite !orb_true_iff, !String.eqb_eq. cbn [In]. intuition congruence.
Qed.
Lemma fix_imm_byte name word o1 o2 r : small_constant word o2 -> byte_place o1 -> fix_imm name word (o1 :: o2 :: r) = as_byte o1 :: as_byte o2 :: r.
Proof.
  destruct o2 as [| |t v f|]; try (intros []; fail). intros (-> & Ht & Hv) Hb. cbn [fix_imm as_byte negb].
  replace (match t with I8 | I16 => true | _ => false end) with true by (destruct Ht as [-> | ->]; reflexivity). replace (swrap 32 v <=? 255) with true by lia. replace (-255 <=? swrap 32 v) with true by lia. cbn [andb].
  destruct o1 as [[k n]|m| |]; cbn [byte_place] in Hb; try contradiction.
  - destruct Hb as [-> | [-> | ->]]; reflexivity.
  - destruct Hb as [-> | ->]; reflexivity.
Qed.
Lemma fix_imm_bit name word o1 o2 r : small_constant word o2 -> ~ byte_place o1 -> bit_test name -> fix_imm name word (o1 :: o2 :: r) = o1 :: as_byte o2 :: r.
Proof.
  destruct o2 as [| |t v f|]; try (intros []; fail). intros (-> & Ht & Hv) Hb Hn. cbn [fix_imm as_byte negb]. apply bit_test_ok in Hn. rewrite Hn.
  replace (match t with I8 | I16 => true | _ => false end) with true by (destruct Ht as [-> | ->]; reflexivity). replace (swrap 32 v <=? 255) with true by lia. replace (-255 <=? swrap 32 v) with true by lia. cbn [andb].
  destruct o1 as [[k n]|m| |]; cbn [byte_place] in Hb; try reflexivity.
  - destruct k; try reflexivity; exfalso; tauto.
  - destruct (x_size m); try reflexivity; exfalso; tauto.
Qed.
Lemma fix_imm_other name word l : (forall o1 o2 r, l = o1 :: o2 :: r -> small_constant word o2 -> ~ byte_place o1 /\ ~ bit_test name) -> fix_imm name word l = l.
Proof.
  intros H. destruct l as [|o1 [|[| |t v f|] r]]; try reflexivity. specialize (H o1 (OImm t v f) r eq_refl). cbn [fix_imm].
  destruct (_ && _ && _) eqn:E; [|reflexivity]. apply andb_prop in E as [E E3]. apply andb_prop in E as [E1 E2].
  assert (Sm : small_constant word (OImm t v f)). { cbn. destruct word; [destruct t; discriminate|]. split; [reflexivity|]. split; [destruct t; try discriminate; auto|lia]. }
  destruct (H Sm) as [H1 H2]. rewrite <- bit_test_ok in H2. apply not_true_iff_false in H2. rewrite H2. destruct o1 as [[k n]|m| |]; cbn [byte_place] in H1; try reflexivity.
  - destruct k; try reflexivity; exfalso; tauto.
  - destruct (x_size m); try reflexivity; exfalso; tauto.
Qed.
Theorem C42_byte name word l :
  match l with
  | o1 :: o2 :: r => (small_constant word o2 -> byte_place o1 -> fix_imm name word l = as_byte o1 :: as_byte o2 :: r) /\
                     (small_constant word o2 -> ~ byte_place o1 -> bit_test name -> fix_imm name word l = o1 :: as_byte o2 :: r)
  | _ => True
  end /\
  ((forall o1 o2 r, l = o1 :: o2 :: r -> small_constant word o2 -> ~ byte_place o1 /\ ~ bit_test name) -> fix_imm name word l = l).
Proof.
  split; [|exact (fix_imm_other name word l)]. destruct l as [|o1 [|o2 r]]; [exact Logic.I|exact Logic.I|]. split; [apply fix_imm_byte|apply fix_imm_bit].
Qed.
Print Assumptions C42_byte.
(** mov [rax],200 is one byte; bt ecx,200 *)
Example C42_byte_example : small_constant false (OImm I16 200 false) /\ byte_place (OMem (mm SzNone (r64 0) None 0 0)) /\ bit_test "BT" /\
  bytes_of (asm "mov" c64 [OMem (mm SzNone (r64 0) None 0 0); OImm I16 200 false]) = Some [0xC6; 0; 200].
Proof. split; [cbn; split; [reflexivity|]; split; [auto|vm_compute; split; discriminate]|]. split; [left; reflexivity|]. split; [left; vm_compute; reflexivity|vm_compute; reflexivity]. Qed.

(** from the source line to the bytes *)
Theorem C42_assembled hash name word c l o : Forall flags_ok l -> l <> [] -> CodeGenV2 hash (BuildInstructionTable hash InstrTableV2) name word c l = Some (Ok o) ->
  exists d, chosen InstrTableV2 name c (fix_imm name word l) (Some d) /\ lowers (d_name d) = lowers name /\
            (rest_ok d c (fix_imm name word l) -> forall v bytes, linked d c (fix_imm name word l) o v bytes -> decodes_to d c (fix_imm name word l) v bytes).
Proof. exact (assembled hash name word c l o). Qed.
Print Assumptions C42_assembled.
Example C42_assembled_example : let l := [OReg (K64, 9); OMem (lab Sz64 None None 0 0)] in Forall flags_ok l /\ bytes_of (asm "mov" c64 l) = Some [0x4C; 0x8B; 0x0D; 0; 0; 0; 0].
Proof. cbv zeta. split; [repeat constructor; crush|vm_compute; reflexivity]. Qed.
(** what is written for a row is assembled exactly if it can be encoded: no instruction prefix, segment overrides only where they have an effect, registers of one
    size in an address, and the decorations the instruction has *)
Theorem C42_accepted d c l : In d InstrTableV2 -> written_ok d c l -> ((exists o, gen d c l = Ok o) <-> allowed d c l).
Proof. exact (gen_iff d c l). Qed.
Print Assumptions C42_accepted.
Example C42_accepted_example : let d := row_of "vmulps" [T_R_YMM; T_R_YMM; T_M_ANY] in let l := [OReg (KY, 9); OReg (KY, 2); OMem (mm SzNone (r64 8) (r64 3) 2 0x1000)] in
  In d InstrTableV2 /\ written_ok d c64 l /\ allowed d c64 l.
Proof.
  cbv zeta. split; [apply row_of_in|]. split; [wok (row_of "vmulps" [T_R_YMM; T_R_YMM; T_M_ANY])|].
  let d' := eval vm_compute in (row_of "vmulps" [T_R_YMM; T_R_YMM; T_M_ANY]) in change (row_of "vmulps" [T_R_YMM; T_R_YMM; T_M_ANY]) with d'. constructor; crush. right. constructor; crush. right. congruence.
Qed.

(** ** Where it fails *)
(** what the bytes of a line are, to the processor *)
Definition read_back (c : ci) (r : option (res out)) : option dins := match r with Some (Ok o) => disasm (c_mode c) (o_bytes o) | _ => None end.
Definition ops_of (i : option dins) : option (list dop) := option_map i_ops i.
Definition at_ (size : Z) (b : abase) (x : option (Z * Z)) (disp : Z) : ea := {| a_size := size; a_base := b; a_index := x; a_disp := disp; a_seg := 3 |}.

(** Finding: in 64-bit code the address size prefix is missing when 32-bit registers are used behind a label or an index has no base: mov ecx,[ecx*4] is assembled as mov ecx,[rcx*4]. *)
Theorem C39_aso_refuted :
  ops_of (read_back c64 (asm "mov" c64 [OReg (K32, 1); OMem (mm SzNone None (r32 1) 4 0)])) = Some [DReg (K32, 1); DMem None 4 (at_ 64 BNone (Some (1, 4)) 0)] /\
  ops_of (read_back c64 (asm "mov" c64 [OReg (K32, 1); OMem (lab SzNone (r32 0) None 0 0)])) = Some [DReg (K32, 1); DMem None 4 (at_ 64 (BReg 0) None 0)].
Proof. split; vm_compute; reflexivity. Qed.
Print Assumptions C39_aso_refuted.
(** Finding: 16-bit addresses in 32-bit code get a 32-bit displacement, which shifts the bytes behind it: mov ecx,[bx+300]; [bp] is assembled as [bx+si], and [si+bx] as [si]. *)
Theorem C39_a16_refuted :
  bytes_of (asm "mov" c32 [OReg (K32, 1); OMem (mm SzNone (r16 3) None 0 300)]) = Some [0x67; 0x8B; 0x8F; 0x2C; 1; 0; 0] /\
  ops_of (read_back c32 (asm "mov" c32 [OReg (K32, 1); OMem (mm SzNone (r16 5) None 0 0)])) = Some [DReg (K32, 1); DMem None 4 (at_ 16 (BReg 3) (Some (6, 1)) 0)] /\
  ops_of (read_back c32 (asm "mov" c32 [OReg (K32, 1); OMem (mm SzNone (r16 6) (r16 3) 0 0)])) = Some [DReg (K32, 1); DMem None 4 (at_ 16 (BReg 6) None 0)].
Proof. repeat split; vm_compute; reflexivity. Qed.
Print Assumptions C39_a16_refuted.
(** Finding: the rows of mpsadbw take no constant: mpsadbw xmm0,xmm1 is accepted and its immediate byte is missing. *)
Theorem C39_mpsadbw_refuted : exists bytes, bytes_of (asm "mpsadbw" c64 [OReg (KX, 0); OReg (KX, 1)]) = Some bytes /\ disasm USE64 bytes = None /\ asm "mpsadbw" c64 [OReg (KX, 0); OReg (KX, 1); OImm I8 3 false] = None.
Proof. eexists. repeat split; vm_compute; reflexivity. Qed.
Print Assumptions C39_mpsadbw_refuted.
(** Finding: in 32-bit code, quadword operands of mov and cvtsi2ss are assembled as doublewords. *)
Theorem C39_qword_refuted :
  ops_of (read_back c32 (asm "cvtsi2ss" c32 [OReg (KX, 0); OMem (mm Sz64 (r32 0) None 0 0)])) = Some [DReg (KX, 0); DMem None 4 (at_ 32 (BReg 0) None 0)] /\
  ops_of (read_back c32 (asm "mov" c32 [OMem (mm Sz64 (r32 0) None 0 0); OImm I32 100000 false])) = Some [DMem None 4 (at_ 32 (BReg 0) None 0); DImm 4 100000].
Proof. split; vm_compute; reflexivity. Qed.
Print Assumptions C39_qword_refuted.
(** Finding: mov rcx,80000000h loads 0FFFFFFFF80000000h (the constant is sign-extended). *)
Theorem C39_constant_refuted : ops_of (read_back c64 (asm "mov" c64 [OReg (K64, 1); OImm I32 0x80000000 false])) = Some [DReg (K64, 1); DImm 8 0xFFFFFFFF80000000].
Proof. vm_compute. reflexivity. Qed.
Print Assumptions C39_constant_refuted.
(** Finding: label[rax*4] is refused in 64-bit code (a label with index but no base). *)
Theorem C39_index_refuted : asm "mov" c64 [OReg (K32, 1); OMem (lab SzNone None (r64 0) 4 0)] = Some Err.
Proof. vm_compute. reflexivity. Qed.
Print Assumptions C39_index_refuted.
(** Finding: for the rows with an absolute address (mov eax,[1234h], movabs) BuildMemoryEncoding reads one element behind the end of the operand array. *)
Theorem C39_bounds_refuted : exists o o', asm "mov" c32 [OReg (K32, 0); OMem (mm SzNone None None 0 0x1234)] = Some (Ok o) /\ o_oob o = true /\
  asm "movabs" c64 [OReg (K64, 0); OMem (mm Sz64 None None 0 0x123456789abc)] = Some (Ok o') /\ o_oob o' = true.
Proof. do 2 eexists. split; [vm_compute; reflexivity|]. split; [reflexivity|]. split; [vm_compute; reflexivity|reflexivity]. Qed.
Print Assumptions C39_bounds_refuted.
(** Finding: segment overrides are refused for SSE and VEX instructions: movaps xmm0,fs:[rax]. *)
Theorem C39_segment_refuted : let c := {| c_mode := USE64; c_evex := false; c_deco := 0; c_broad := 0; c_sae := 0; c_ins := None; c_seg := Some 4; c_stray := false |} in
  asm "movaps" c [OReg (KX, 0); OMem (mm SzNone (r64 0) None 0 0)] = Some Err /\ asm "vmovaps" c [OReg (KX, 0); OMem (mm SzNone (r64 0) None 0 0)] = Some Err /\
  bytes_of (asm "mov" c [OReg (K32, 0); OMem (mm SzNone (r64 0) None 0 0)]) = Some [0x64; 0x8B; 0].
Proof. cbv zeta. repeat split; vm_compute; reflexivity. Qed.
Print Assumptions C39_segment_refuted.
(** Finding: the mask register of vgatherdps changes the base of the address when it is xmm8 or above: [rax+xmm1*4],xmm9 is assembled as [r8+xmm1*4],xmm9. *)
Theorem C40_gather_refuted : ops_of (read_back c64 (asm "vgatherdps" c64 [OReg (KX, 0); OMem (mm SzNone (r64 0) (Some (KX, 1)) 4 0); OReg (KX, 9)])) =
  Some [DReg (KX, 0); DMem (Some KX) 4 (at_ 64 (BReg 8) (Some (1, 4)) 0); DReg (KX, 9)].
Proof. vm_compute. reflexivity. Qed.
Print Assumptions C40_gather_refuted.
(** Finding: an address with the vector register written first is refused: [xmm1+rax]. *)
Theorem C40_vector_first_refuted : asm "vgatherdps" c64 [OReg (KX, 0); OMem (mm SzNone (Some (KX, 1)) (r64 0) 1 0); OReg (KX, 2)] = Some Err /\
  bytes_of (asm "vgatherdps" c64 [OReg (KX, 0); OMem (mm SzNone (r64 0) (Some (KX, 1)) 1 0); OReg (KX, 2)]) = Some [0xC4; 0xE2; 0x69; 0x92; 0x04; 0x08].
Proof. split; vm_compute; reflexivity. Qed.
Print Assumptions C40_vector_first_refuted.
(** Finding: instructions which exist with EVEX only get an 8-bit displacement that is not divided by N unless a decoration is written: vmovdqa32 xmm0,[rax+16] reads [rax+256]. *)
Theorem C41_disp_refuted : ops_of (read_back c64 (asm "vmovdqa32" c64 [OReg (KX, 0); OMem (mm SzNone (r64 0) None 0 16)])) = Some [DReg (KX, 0); DMem None 16 (at_ 64 (BReg 0) None 256)].
Proof. vm_compute. reflexivity. Qed.
Print Assumptions C41_disp_refuted.
(** Finding: a displacement that is divided by N is written in 32 bits when there is no base register: vmovaps xmm0,[rax*4+16] with EVEX reads [rax*4+1], and [rip+16] reads [rip+1]. *)
Theorem C41_disp32_refuted : ops_of (read_back e64 (asm "vmovaps" e64 [OReg (KX, 0); OMem (mm SzNone None (r64 0) 4 16)])) = Some [DReg (KX, 0); DMem None 16 (at_ 64 BNone (Some (0, 4)) 1)] /\
  ops_of (read_back e64 (asm "vmovaps" e64 [OReg (KX, 0); OMem (mm SzNone (Some (KIP, 0)) None 0 16)])) = Some [DReg (KX, 0); DMem None 16 (at_ 64 BIP None 1)].
Proof. split; vm_compute; reflexivity. Qed.
Print Assumptions C41_disp32_refuted.
(** Finding: the divisor is wrong for vbroadcastsd ymm, vpmovzxbq and vcvtdq2pd: vbroadcastsd ymm0,[rax+8] with EVEX reads [rax+16]. *)
Theorem C41_scale_refuted : ops_of (read_back e64 (asm "vbroadcastsd" e64 [OReg (KY, 0); OMem (mm SzNone (r64 0) None 0 8)])) = Some [DReg (KY, 0); DMem None 8 (at_ 64 (BReg 0) None 16)] /\
  ops_of (read_back e64 (asm "vpmovzxbq" e64 [OReg (KX, 0); OMem (mm SzNone (r64 0) None 0 16)])) = Some [DReg (KX, 0); DMem None 2 (at_ 64 (BReg 0) None 4)] /\
  ops_of (read_back e64 (asm "vcvtdq2pd" e64 [OReg (KX, 0); OMem (mm SzNone (r64 0) None 0 16)])) = Some [DReg (KX, 0); DMem None 8 (at_ 64 (BReg 0) None 8)].
Proof. repeat split; vm_compute; reflexivity. Qed.
Print Assumptions C41_scale_refuted.
(** Finding: vmulps with two operands and EVEX is written without any prefix: 59 C1, which is pop rcx and a shift. *)
Theorem C41_dup_refuted : bytes_of (asm "vmulps" e64 [OReg (KX, 0); OReg (KX, 1)]) = Some [0x59; 0xC1].
Proof. vm_compute. reflexivity. Qed.
Print Assumptions C41_dup_refuted.
(** Finding: in 32-bit code a store to a label with EVEX has the X bit cleared: the processor takes 62 B1 for BOUND. *)
Theorem C41_label_refuted : exists bytes, bytes_of (asm "vmovaps" e32 [OMem (lab SzNone None None 0 0); OReg (KX, 1)]) = Some bytes /\ firstn 2 bytes = [0x62; 0xB1] /\ disasm USE32 bytes = None.
Proof. eexists. repeat split; vm_compute; reflexivity. Qed.
Print Assumptions C41_label_refuted.
(** Finding: zeroing is accepted for a store, which is an invalid instruction: vmovdqa32 [rax]{k1}{z},xmm1. *)
Theorem C41_zero_refuted : let c := cx USE64 true 0x81 0 0 in exists bytes, bytes_of (asm "vmovdqa32" c [OMem (mm SzNone (r64 0) None 0 0); OReg (KX, 1)]) = Some bytes /\ disasm USE64 bytes = None.
Proof. cbv zeta. eexists. repeat split; vm_compute; reflexivity. Qed.
Print Assumptions C41_zero_refuted.
(** Finding: embedded rounding is accepted where the instruction has none: vmovaps xmm0,xmm1,{rn-sae}. *)
Theorem C41_rounding_refuted : let c := cx USE64 true 0 0 0x20 in exists bytes, bytes_of (asm "vmovaps" c [OReg (KX, 0); OReg (KX, 1)]) = Some bytes /\ disasm USE64 bytes = None.
Proof. cbv zeta. eexists. repeat split; vm_compute; reflexivity. Qed.
Print Assumptions C41_rounding_refuted.
(** Finding: embedded rounding is accepted with xmm and ymm registers, which the processor takes for zmm. *)
Theorem C41_length_refuted : let c := cx USE64 true 0 0 0x60 in ops_of (read_back c (asm "vmulps" c [OReg (KX, 0); OReg (KX, 1); OReg (KX, 2)])) = Some [DReg (KZ, 0); DReg (KZ, 1); DReg (KZ, 2)].
Proof. vm_compute. reflexivity. Qed.
Print Assumptions C41_length_refuted.
