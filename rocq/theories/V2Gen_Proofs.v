(** C39-C42: the parts of the bytes that gen produces. *)
From Coq Require Import String Ascii.
From Verif Require Import Base Mem_Model Mem_Spec V2_Model V2_Table V2_Spec V2Bits_Proofs V2Mem_Proofs V2Row_Proofs V2Head_Proofs V2Type_Proofs.
Open Scope list_scope.

Local Arguments wrap : simpl never.
Local Arguments swrap : simpl never.
Local Arguments Z.lor : simpl never.
Local Arguments Z.shiftl : simpl never.
Local Arguments Z.land : simpl never.
Local Arguments Z.testbit : simpl never.

Definition vexb (d : row) (c : ci) (l : list opnd) (n : menc) : list Z :=
  match rkind d (c_evex c) with
  | HLegacy => []
  | HVex => BuildVEX d l (n_B n) (n_X n)
  | HEvex => pack_evex (evex_fields d l c (PromoteBroadcast d (c_broad c)) (n_B n) (n_X n) (n_RR n))
  end.
Definition rexz (d : row) (c : ci) (l : list opnd) (n : menc) : Z := if is64 (c_mode c) then Z.lor (n_rex n) (BuildREX (n_rex n) d l) else n_rex n.
Definition the_r (d : row) (l : list opnd) : Z := if has F_OPCODE_REG (d_flags d) then Z.land (regno (base_reg (opn l 0))) 7 else 0.
Definition needfix (d : row) (l : list opnd) : bool :=
  (match d_mem d with NoMem => false | _ => label (the_mem d l) end) || match d_imm d with Some i => match opn l i with OImm _ _ f => f | _ => false end | None => false end.
Definition front (d : row) (c : ci) (l : list opnd) (n : menc) : list Z :=
  (if n_aso n then [0x67] else []) ++ (if use_oso d (c_mode c) then [0x66] else []) ++ seg_list (c_seg c) ++ vexb d c l n ++ mand1 (d_pfx d) ++
  (if rexz d c l n =? 0 then [] else [rexz d c l n]) ++ mand2 (d_pfx d) ++ ropc d (the_r d l) ++ (if n_needmod n || snd (BuildModRM d l) then [Z.lor (n_modrm n) (fst (BuildModRM d l))] else []) ++ (if n_needsib n then [n_sib n] else []).
Record made (d : row) (c : ci) (l : list opnd) (o : out) (n : menc) : Prop := {
  md_n : match d_mem d with NoMem => n = no_menc | _ => BuildMemoryEncoding d (the_mem d l) c (PromoteBroadcast d (c_broad c)) = Ok n end;
  md_ev : c_evex c = true -> d_evex d <> [];
  md_ok : rkind d (c_evex c) = HEvex -> evex_ok d l c (PromoteBroadcast d (c_broad c)) = true;
  md_bytes : o_bytes o = front d c l n ++ le_bytes (n_dsize n) (n_disp n) ++ le_bytes (imm_size d) (imm_value d l);
  md_dfix : o_dfix o = if negb (Nat.eqb (n_dsize n) 0) && x_fix (the_mem d l) && needfix d l then Some (zlen (front d c l n)) else None }.
Lemma opcode_ropc d l : opcode_bytes d l = ropc d (the_r d l).
Proof. unfold opcode_bytes, ropc, the_r. destruct (has F_OPCODE_REG (d_flags d)); reflexivity. Qed.
Lemma gen_inv d c l o : gen d c l = Ok o -> has ALLOW_LOCK (d_flags d) = false -> has ALLOW_REP (d_flags d) = false -> has ALLOW_BND (d_flags d) = false -> exists n, made d c l o n.
Proof.
  intros H F1 F2 F3. unfold gen in H.
  destruct (match d_mem d with NoMem => Ok no_menc | _ => BuildMemoryEncoding d (the_mem d l) c (PromoteBroadcast d (c_broad c)) end) as [n| |] eqn:En; cbn [bindr] in H; try discriminate.
  destruct (BuildModRM d l) as [mm need] eqn:Em.
  set (vx := if has VEX (d_vex d) && negb (has EVEX_ONLY (d_evex d)) && negb (c_evex c) then Ok (BuildVEX d l (n_B n) (n_X n))
         else if has EVEX_ONLY (d_evex d) || (c_evex c && has EVEX (d_vex d)) then
           if evex_ok d l c (PromoteBroadcast d (c_broad c)) then Ok (pack_evex (evex_fields d l c (PromoteBroadcast d (c_broad c)) (n_B n) (n_X n) (n_RR n))) else Err
         else Ok []) in H.
  assert (V : (vx = Ok (vexb d c l n) /\ (rkind d (c_evex c) = HEvex -> evex_ok d l c (PromoteBroadcast d (c_broad c)) = true)) \/ vx = Err).
  { subst vx. unfold vexb, rkind. destruct (has VEX (d_vex d) && negb (has EVEX_ONLY (d_evex d)) && negb (c_evex c)); [left; split; [reflexivity|discriminate]|].
    destruct (has EVEX_ONLY (d_evex d) || (c_evex c && has EVEX (d_vex d))); [|left; split; [reflexivity|discriminate]]. destruct (evex_ok d l c _); auto. }
  destruct V as [[V Vk] | V]; rewrite V in H; cbn [bindr] in H; [|discriminate]. clear V vx.
  destruct (c_evex c && match d_evex d with [] => true | _ => false end) eqn:Ee; [discriminate|].
  assert (Ip : ins_prefix d (c_ins c) = Ok [] \/ ins_prefix d (c_ins c) = Err).
  { unfold ins_prefix. destruct (c_ins c) as [[]|]; auto; rewrite ?F1, ?F2, ?F3; auto. }
  destruct Ip as [Ip | Ip]; rewrite Ip in H; cbn [bindr] in H; [|discriminate].
  assert (Sp : seg_prefix d c = Ok (seg_list (c_seg c)) \/ seg_prefix d c = Err).
  { unfold seg_prefix, seg_list. destruct (c_seg c) as [r|]; auto. repeat (match goal with |- context [if ?b then _ else _] => destruct b end); auto. }
  destruct Sp as [Sp | Sp]; rewrite Sp in H; cbn [bindr] in H; [|discriminate]. cbv zeta in H.
  assert (E : forall a b : out, Ok a = Ok b -> a = b) by congruence. apply E in H. clear E. exists n. subst o. rewrite opcode_ropc. fold (rexz d c l n).
  constructor; cbn [o_bytes o_dfix].
  - destruct (d_mem d); [inversion En; reflexivity|exact En..].
  - intros Ec. rewrite Ec in Ee. destruct (d_evex d); [discriminate|discriminate].
  - exact Vk.
  - unfold front. rewrite Em. cbn [fst snd]. unfold rexz, is64. reflexivity.
  - unfold front. rewrite Em. cbn [fst snd]. reflexivity.
Qed.
