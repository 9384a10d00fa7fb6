From Verif Require Import Base Expr_Spec Expr_Model ExprRun_Spec Expr_Proofs ExprParse_Proofs.

(** C01. Whatever way a tree is written, with brackets at least where the table
    of precedences needs them, EvalOperand returns its 64-bit value (or the error
    it has) and all tokens are consumed. *)
Theorem C01_precedence : forall t ts, Writes 15 15 t ts -> in_range t -> delivers (eval t) (EvalOperand false ts).
Proof. exact evaluates. Qed.
Print Assumptions C01_precedence.

(** Every tree can be written, and what is written is evaluated to its value. *)
Theorem C01_every_tree : forall t, in_range t ->
  Writes 15 15 t (write 15 t) /\ delivers (eval t) (EvalOperand false (write 15 t)).
Proof.
  intros t H. assert (Writes 15 15 t (write 15 t)) as W by (apply write_writes; lia).
  split; [exact W|]. apply evaluates; assumption.
Qed.
Print Assumptions C01_every_tree.

(** A token sequence has one meaning: two trees written the same have the same value. *)
Theorem C01_unambiguous : forall t u ts, Writes 15 15 t ts -> Writes 15 15 u ts -> in_range t -> in_range u -> eval t = eval u.
Proof.
  intros t u ts W W' H H'. pose proof (evaluates _ _ W H) as A. pose proof (evaluates _ _ W' H') as B.
  destruct (eval t), (eval u); cbn in A, B;
    repeat match goal with X : exists _, _ = _ |- _ => let E := fresh in destruct X as [? E] end; congruence.
Qed.
Print Assumptions C01_unambiguous.

(** The evaluator ends on every token sequence, well formed or not, in both modes. *)
Theorem C01_ends : forall m510 ts, EvalOperand m510 ts <> Fuel.
Proof. exact EvalOperand_total. Qed.
Print Assumptions C01_ends.

(** 1 + 2 * -(3 - 4) SHL 2 EQ 9 AND NOT 10 - 3 - 2 *)
Definition C01_demo_tokens : list tok :=
  [TNum 1 0; TPlus; TNum 2 0; TMul; TMinus; TOpen; TNum 3 0; TMinus; TNum 4 0; TClose; TBin SHL; TNum 2 0;
   TBin EQ; TNum 9 0; TBin AND; TUn NOT; TNum 10 0; TMinus; TNum 3 0; TMinus; TNum 2 0].
Definition C01_demo_tree : tree :=
  Bin And
    (Bin Eq (Bin Add (Num 1) (Bin Shl (Bin Mul (Num 2) (Un Neg (Bin Sub (Num 3) (Num 4)))) (Num 2))) (Num 9))
    (Un Not (Bin Sub (Bin Sub (Num 10) (Num 3)) (Num 2))).
Example C01_demo : Writes 15 15 C01_demo_tree C01_demo_tokens /\ in_range C01_demo_tree /\
  eval C01_demo_tree = V (2 ^ 64 - 6) /\ write 15 C01_demo_tree = C01_demo_tokens /\
  EvalOperand false C01_demo_tokens = Done (Some {| ll := 2 ^ 64 - 6; hl := 0; neg := false |}) [].
Proof.
  assert (write 15 C01_demo_tree = C01_demo_tokens) as E by reflexivity.
  split; [rewrite <- E; apply write_writes; lia|]. split; [cbn; lia|]. split; [reflexivity|]. split; [exact E|]. vm_compute. reflexivity.
Qed.
Example C01_demo_errors : eval (Bin Div (Num 1) (Bin Sub (Num 2) (Num 2))) = Bad /\
  EvalOperand false [TNum 1 0; TDiv; TOpen; TNum 2 0; TMinus; TNum 2 0; TClose] = Error /\
  EvalOperand false [TNum 1 0; TNum 2 0] = Error /\ EvalOperand false [TNum 1 0; TPlus] = Error.
Proof. repeat split. Qed.

(** With -Zm (MASM 5.10 compatibility) the opening bracket gets the precedence 9
    and takes the following * as part of its operand: 10 / (2) * 5 is 1. *)
Theorem C01_m510_refuted : exists t ts, Writes 15 15 t ts /\ in_range t /\ ~ delivers (eval t) (EvalOperand true ts).
Proof.
  exists (Bin Mul (Bin Div (Num 10) (Num 2)) (Num 5)), [TNum 10 0; TDiv; TOpen; TNum 2 0; TClose; TMul; TNum 5 0].
  split.
  { apply (WBin 15 15 Mul (Bin Div (Num 10) (Num 2)) (Num 5) [TNum 10 0; TDiv; TOpen; TNum 2 0; TClose] [TNum 5 0]); [cbn; lia|cbn; lia| |apply WNum].
    apply (WBin 8 8 Div (Num 10) (Num 2) [TNum 10 0] [TOpen; TNum 2 0; TClose]); [cbn; lia|cbn; lia|apply WNum|].
    apply (WPar 7 8 (Num 2) [TNum 2 0]). apply WNum. }
  split; [cbn; lia|]. intros (n & H). destruct (EvalOperand true _) as [e r| | |] eqn:E in H; try discriminate.
  vm_compute in E. injection E as <- <-. injection H as H _. vm_compute in H. discriminate.
Qed.
Print Assumptions C01_m510_refuted.

(** C03. The operators on parts of a constant. *)
Definition part (o : unop) (v : Z) : Z :=
  match o with
  | NOT => 2 ^ 64 - 1 - v
  | LOW => bits v 0 8 | HIGH => bits v 8 8
  | LOWWORD => bits v 0 16 | HIGHWORD => bits v 16 16
  | LOW32 => bits v 0 32 | HIGH32 => bits v 32 32
  end.
Theorem C03_parts : forall m510 o v n, 0 <= v < 2 ^ 64 ->
  calculate m510 (TUn o) None (Some {| ll := v; hl := 0; neg := n |}) = Val {| ll := part o v; hl := 0; neg := n |}.
Proof.
  intros m510 o v n H. unfold calculate. cbn [hl Z.eqb negb andb].
  pose proof (unary_value o {| ll := v; hl := 0; neg := n |} H) as E. cbn [ll] in E.
  destruct o; unfold unary_op, set_ll in *; cbn [ll hl neg part] in *; rewrite E; reflexivity.
Qed.
Print Assumptions C03_parts.

(** An operand of more than 64 bits is rejected by them. *)
Theorem C03_too_large : forall m510 o e, hl e <> 0 -> calculate m510 (TUn o) None (Some e) = CErr.
Proof. intros m510 o e H. unfold calculate. rewrite (proj2 (Z.eqb_neq _ _) H). reflexivity. Qed.
Print Assumptions C03_too_large.

(** Unary minus and plus of a 64-bit constant. *)
Theorem C03_sign : forall m510 v n, 0 <= v < 2 ^ 64 ->
  calculate m510 TMinus None (Some {| ll := v; hl := 0; neg := n |}) = Val {| ll := (- v) mod 2 ^ 64; hl := 0; neg := negb n |} /\
  calculate m510 TPlus None (Some {| ll := v; hl := 0; neg := n |}) = Val {| ll := v; hl := 0; neg := false |}.
Proof. intros m510 v n H. split; reflexivity. Qed.
Print Assumptions C03_sign.

(** Unary minus of a 128-bit constant, if its lower half is not zero. *)
Definition value128 (e : expr) : Z := ll e + 2 ^ 64 * hl e.
Theorem C03_minus_128 : forall m510 e, 0 < ll e < 2 ^ 64 -> 0 < hl e < 2 ^ 64 ->
  exists r, calculate m510 TMinus None (Some e) = Val r /\ value128 r = 2 ^ 128 - value128 e.
Proof.
  intros m510 e Hl Hh. exists (negative_op e). split.
  - unfold calculate. rewrite andb_false_r. reflexivity.
  - unfold value128, negative_op. cbn [ll hl]. rewrite (proj2 (Z.eqb_neq (hl e) 0)) by lia. unfold u64, wrap.
    replace (- ll e) with ((2 ^ 64 - ll e) + (-1) * 2 ^ 64) by lia. rewrite Z.mod_add, Z.mod_small by lia.
    replace (- hl e - 1) with ((2 ^ 64 - hl e - 1) + (-1) * 2 ^ 64) by lia. rewrite Z.mod_add, Z.mod_small by lia.
    change (2 ^ 128) with (2 ^ 64 * 2 ^ 64). lia.
Qed.
Print Assumptions C03_minus_128.

(** If it is zero, the carry into the upper half is lost: -10000000000000000h. *)
Theorem C03_minus_128_refuted : exists e r, 0 <= ll e < 2 ^ 64 /\ 0 < hl e < 2 ^ 64 /\
  calculate false TMinus None (Some e) = Val r /\ value128 r <> 2 ^ 128 - value128 e.
Proof.
  exists {| ll := 0; hl := 1; neg := false |}, {| ll := 0; hl := 2 ^ 64 - 2; neg := true |}.
  split; [cbn; lia|]. split; [cbn; lia|]. split; [reflexivity|]. vm_compute. discriminate.
Qed.
Print Assumptions C03_minus_128_refuted.

(** The upper half of the left operand is not looked at: 2^64 * 2 + 0 keeps it unchanged. *)
Theorem C03_left_operand_refuted : exists m510 a b r, calculate m510 TMul (Some a) (Some b) = Val r /\
  value128 a * value128 b < 2 ^ 128 /\ value128 r <> value128 a * value128 b /\ hl r <> 0.
Proof.
  exists false, {| ll := 0; hl := 1; neg := false |}, {| ll := 2; hl := 0; neg := false |}, {| ll := 0; hl := 1; neg := false |}.
  split; [reflexivity|]. split; [vm_compute; reflexivity|]. split; [vm_compute; discriminate|discriminate].
Qed.
Print Assumptions C03_left_operand_refuted.

Example C03_demo : calculate false (TUn HIGH) None (Some {| ll := 0x123456789abcdef0; hl := 0; neg := false |}) = Val {| ll := 0xde; hl := 0; neg := false |} /\
  calculate false (TUn HIGHWORD) None (Some {| ll := 0x123456789abcdef0; hl := 0; neg := false |}) = Val {| ll := 0x9abc; hl := 0; neg := false |} /\
  value128 (negative_op {| ll := 5; hl := 7; neg := false |}) = 2 ^ 128 - (5 + 7 * 2 ^ 64).
Proof. repeat split; vm_compute; reflexivity. Qed.
