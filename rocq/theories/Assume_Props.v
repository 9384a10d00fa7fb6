(** C49: memory operands are accessed through a register that holds their
    segment.

    What is compared with what: the ASSUME directives of the program and the
    register that the processor uses for an address with the prefix ([used])
    from Assume_Spec, and the prefix and fixup frame chosen by the assembler
    ([operand]) from Assume_Model. *)
From Coq Require Import ZArith List Bool Lia.
From Verif Require Import Base Assume_Model Assume_Spec Assume_Proofs.
Import ListNotations.
Open Scope Z_scope.

(** A register holds what the last ASSUME said, and is barred if this was
    ERROR. *)
Theorem C49_assume : forall ls t, Forall (Forall item_ok) ls -> run init ls = Ok t -> made t /\ forall r, 0 <= r < 6 ->
  (forall x, holds t r x <-> fold_left said (concat ls) (fun _ => None) r = Some x) /\
  a_err (nth (Z.to_nat r) t none) = fold_left barred (concat ls) (fun _ => false) r.
Proof. exact history_ok. Qed.
Print Assumptions C49_assume.

Theorem C49_accepts : forall l t, (exists t', assume t l = Ok t') <-> (forall a b, l = a ++ AllNothing :: b -> b = []).
Proof. exact assume_accepts. Qed.
Print Assumptions C49_accepts.

(** A symbol in a segment: the register that the processor uses holds the
    segment or its group, and the offset in the instruction is relative to what
    it holds.  There is no prefix if the usual register will do; otherwise the
    first of DS, SS, ES, FS, GS, CS that holds the segment is taken, otherwise the
    first that holds the group.  The operand is refused exactly if there is no
    such register. *)
Theorem C49_symbol : forall grp t m st n, made t -> exists_ m -> (st = Internal \/ st = External) -> flat_ok grp t m n ->
  let s := {| y_state := st; y_seg := Some n |} in
  (exists pre r x, operand grp t false m (Some s) NOTHING None = Ok (pre, Some x) /\ used m pre = Some r /\
     (pre = [] <-> r = usual m) /\ picks grp t (usual m) n r x) \/
  (operand grp t false m (Some s) NOTHING None = Err /\ forall q x, part grp n x -> ~ holds t q x).
Proof. exact symbol_ok. Qed.
Print Assumptions C49_symbol.

(** seg:label and group:label: the register used holds this segment or group. *)
Theorem C49_override : forall grp t m s x, made t -> exists_ m -> ~ holds t (usual m) FLAT ->
  match s with Some s => (y_state s = Internal \/ y_state s = External) /\ y_seg s <> None | None => True end ->
  (exists pre r, operand grp t false m s NOTHING (Some x) = Ok (pre, Some x) /\ used m pre = Some r /\ (pre = [] <-> r = usual m) /\ holds t r x) \/
  (operand grp t false m s NOTHING (Some x) = Err /\ forall q, ~ holds t q x).
Proof. exact override_ok. Qed.
Print Assumptions C49_override.

(** es:label: this register is used; the offset is relative to what it holds,
    or to the group of the symbol if nothing is known. *)
Theorem C49_explicit : forall grp t m s ov over, exists_ m -> 0 <= ov < 6 -> a_err (at_ t ov) = false ->
  exists pre f, operand grp t false m s ov over = Ok (pre, f) /\ used m pre = Some ov /\
    (forall x, s <> None -> made t -> holds t ov x -> f = Some x) /\
    (forall st n, s = Some {| y_state := st; y_seg := Some n |} -> made t -> st = Internal \/ st = External -> (forall x, ~ holds t ov x) ->
       f = Some (match grp n with Some g => TGrp g | None => TSeg n end)).
Proof. exact explicit_ok. Qed.
Print Assumptions C49_explicit.

Theorem C49_error : forall grp t lea m s ov over, 0 <= ov < 6 -> a_err (at_ t ov) = true -> operand grp t lea m s ov over = Err.
Proof. exact error_ok. Qed.
Print Assumptions C49_error.

(** Parameters and locals: SS is used, whatever the base register is. *)
Theorem C49_stack : forall grp t m sg, made t -> exists_ m -> ~ holds t (usual m) FLAT ->
  exists pre f, operand grp t false m (Some {| y_state := Stack; y_seg := sg |}) NOTHING None = Ok (pre, f) /\ used m pre = Some 2.
Proof. exact stack_ok. Qed.
Print Assumptions C49_stack.

(** Externals without segment and labels not yet defined: no prefix. *)
Theorem C49_free : forall grp t m, made t -> exists_ m ->
  (exists f, operand grp t false m (Some {| y_state := External; y_seg := None |}) NOTHING None = Ok ([], f) /\ forall x, holds t (usual m) x -> f = Some x) /\
  forall sg over, operand grp t false m (Some {| y_state := Undefined; y_seg := sg |}) NOTHING over = Ok ([], None).
Proof. exact free_ok. Qed.
Print Assumptions C49_free.

(** LEA: no prefix, offset relative to the group. *)
Theorem C49_lea : forall grp t m st n over, exists_ m -> st = Internal \/ st = External ->
  operand grp t true m (Some {| y_state := st; y_seg := Some n |}) NOTHING over = Ok ([], Some (match grp n with Some g => TGrp g | None => TSeg n end)).
Proof. exact lea_ok. Qed.
Print Assumptions C49_lea.

(** ** Cases meeting the hypotheses *)

(** assume cs:seg 1, ds:group 5, es:seg 3 / assume ss:ds, fs:error; segment 2 is
    in group 5. *)
Definition prog : list (list item) := [[ToTarget CS (TSeg 1); ToTarget DS (TGrp 5); ToTarget ES (TSeg 3)]; [ToReg SS DS; ToError FS]].
Definition tab : table := match run init prog with Ok t => t | _ => [] end.
Definition grps : Z -> option Z := fun n => if n =? 2 then Some 5 else None.
Definition lab (n : Z) : option sym := Some {| y_state := Internal; y_seg := Some n |}.

Example C49_ex_made : made tab /\ run init prog = Ok tab /\ flat_ok grps tab Direct 3.
Proof.
  assert (F : Forall (Forall item_ok) prog) by (unfold prog; repeat constructor; cbn; unfold CS, DS, ES, SS, FS; lia).
  assert (R : run init prog = Ok tab) by reflexivity.
  split; [apply (C49_assume prog tab F R)|]. split; [exact R|]. intros (_ & e & E & A). vm_compute in E. injection E as <-. discriminate.
Qed.

(** [lab2] and [bp+lab2] through DS and SS; [lab3] through ES, [si+lab1] through
    CS, segment 4 not at all; fs:[lab2] is an error. *)
Example C49_ex_operands :
  operand grps tab false Direct (lab 2) NOTHING None = Ok ([], Some (TGrp 5)) /\
  operand grps tab false (Base (R16 5)) (lab 2) NOTHING None = Ok ([], Some (TGrp 5)) /\
  operand grps tab false Direct (lab 3) NOTHING None = Ok ([0x26], Some (TSeg 3)) /\
  operand grps tab false (Both (R16 5) (R16 6)) (lab 1) NOTHING None = Ok ([0x2E], Some (TSeg 1)) /\
  operand grps tab false Direct (lab 4) NOTHING None = Err /\
  operand grps tab false Direct (lab 2) FS None = Err /\
  operand grps tab false (Base (R32 5)) (lab 2) DS None = Ok ([0x3E], Some (TGrp 5)) /\
  operand grps tab false Direct None NOTHING (Some (TSeg 3)) = Ok ([0x26], Some (TSeg 3)).
Proof. vm_compute. repeat split. Qed.

(** ** What fails *)

(** "Operands are accessed through a register that holds their segment." If the
    usual register is assumed to be FLAT it is taken for all operands (assume.c
    530-533), also for labels of segments that are not in FLAT, and for
    seg:label; a register that does hold the segment is not used, and there is
    no error. *)
Theorem C49_flat_refuted : exists t n, made t /\ holds t 0 (TSeg n) /\
  operand (fun _ => None) t false Direct (lab n) NOTHING None = Ok ([], Some FLAT) /\
  operand (fun _ => None) t false Direct (lab n) NOTHING (Some (TSeg n)) = Ok ([], Some FLAT) /\
  used Direct [] = Some 3 /\ ~ holds t 3 (TSeg n).
Proof.
  set (l := [[ToTarget DS FLAT; ToTarget ES (TSeg 1)]]). set (t := match run init l with Ok t => t | _ => [] end). exists t, 1.
  assert (F : Forall (Forall item_ok) l) by (unfold l; repeat constructor; cbn; unfold DS, ES; lia).
  destruct (C49_assume l t F eq_refl) as [M H]. split; [exact M|]. split; [apply H; [lia|reflexivity]|].
  split; [vm_compute; reflexivity|]. split; [vm_compute; reflexivity|]. split; [reflexivity|].
  intro X. apply H in X; [|lia]. vm_compute in X. discriminate.
Qed.
Print Assumptions C49_flat_refuted.
