(** What segment registers are used for, stated without the functions of the
    assembler. *)
From Coq Require Import ZArith List Bool.
From Verif Require Import Base Assume_Model.
Import ListNotations.
Open Scope Z_scope.

(** ** The processor *)

(** Addresses with BP, or with EBP or ESP as base, are in the stack segment. *)
Definition on_stack (m : mem) : bool :=
  match m with
  | Base (R16 n) => n =? 5
  | Base (R32 n) => (n =? 4) || (n =? 5)
  | Both (R16 b) (R16 i) => (b =? 5) || (i =? 5)
  | Both (R32 b) (R32 _) => (b =? 4) || (b =? 5)
  | _ => false
  end.
Definition usual (m : mem) : Z := if on_stack m then 2 else 3.

(** The register used, with the prefixes of the instruction. *)
Definition used (m : mem) (pre : list Z) : option Z :=
  match pre with
  | [] => Some (usual m)
  | [0x26] => Some 0 | [0x2E] => Some 1 | [0x36] => Some 2 | [0x3E] => Some 3 | [0x64] => Some 4 | [0x65] => Some 5
  | _ => None
  end.

(** Memory operands that exist. *)
Definition exists_ (m : mem) : Prop :=
  match m with
  | Direct => True
  | Base (R16 n) => In n [3; 5; 6; 7]
  | Base (R32 n) => 0 <= n < 8
  | Index (R32 n) => 0 <= n < 8 /\ n <> 4
  | Both (R16 b) (R16 i) => In b [3; 5] /\ In i [6; 7] \/ In b [6; 7] /\ In i [3; 5]
  | Both (R32 b) (R32 i) => 0 <= b < 8 /\ 0 <= i < 8 /\ i <> 4
  | _ => False
  end.

(** ** ASSUME *)

(** What the program says a register holds. *)
Definition holds (t : table) (r : Z) (x : target) : Prop := 0 <= r < 6 /\ exists e, nth_error t (Z.to_nat r) = Some e /\ a_sym e = Some x.

(** Items that exist. *)
Definition item_ok (i : item) : Prop :=
  match i with ToNothing r | ToError r | ToTarget r _ => 0 <= r < 6 | ToReg r q => 0 <= r < 6 /\ 0 <= q < 6 | AllNothing => True end.

(** Tables made by ASSUME directives. *)
Inductive made : table -> Prop :=
| made_init : made (repeat none 6)
| made_step : forall t l t', made t -> Forall item_ok l -> assume t l = Ok t' -> made t'.

(** What register [r] holds after an item, [c]: before. *)
Definition said (c : Z -> option target) (i : item) : Z -> option target :=
  fun r =>
    match i with
    | ToNothing q | ToError q => if r =? q then None else c r
    | ToTarget q x => if r =? q then Some x else c r
    | ToReg q p => if r =? q then c p else c r
    | AllNothing => None
    end.

(** Whether a register must not be used. *)
Definition barred (c : Z -> bool) (i : item) : Z -> bool :=
  fun r =>
    match i with
    | ToError q => if r =? q then true else c r
    | ToNothing q | ToTarget q _ | ToReg q _ => if r =? q then false else c r
    | AllNothing => false
    end.

(** ** Symbols *)

(** The segment parts that the address of a symbol may have: its segment, or
    the group of the segment. *)
Definition part (grp : Z -> option Z) (n : Z) (x : target) : Prop := x = TSeg n \/ exists g, grp n = Some g /\ x = TGrp g.

(** FLAT is assumed for the usual register only to access segments of FLAT. *)
Definition flat_ok (grp : Z -> option Z) (t : table) (m : mem) (n : Z) : Prop := holds t (usual m) FLAT -> grp n = Some 0.

(** The order in which registers are chosen if the usual one does not fit. *)
Definition order : list Z := [3; 2; 0; 4; 5; 1].
(** [r] holds [x] and no register before it in the order does. *)
Definition chosen (t : table) (x : target) (r : Z) : Prop :=
  exists a b, order = a ++ r :: b /\ holds t r x /\ forall q, In q a -> ~ holds t q x.

(** The register [r] and what it holds, for a symbol in segment [n], [d]: the
    usual register. *)
Definition picks (grp : Z -> option Z) (t : table) (d n r : Z) (x : target) : Prop :=
  holds t d x /\ r = d /\ part grp n x \/
  (forall y, part grp n y -> ~ holds t d y) /\
  (x = TSeg n /\ chosen t x r \/
   (forall q, ~ holds t q (TSeg n)) /\ exists g, grp n = Some g /\ x = TGrp g /\ chosen t x r).

(** The table after a list of directives. *)
Fixpoint run (t : table) (ls : list (list item)) : res table :=
  match ls with
  | [] => Ok t
  | l :: r => match assume t l with Ok t' => run t' r | e => e end
  end.
