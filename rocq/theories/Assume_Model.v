(** Model of the segment registers of memory operands: the ASSUME directive
    (assume.c 276-440), search_assume and GetAssume (assume.c 444-559),
    seg_override and check_assume (parser.c 521-627), SetFixupFrame (fixup.c
    148-186) and the prefix byte (codegen.c 510-515).

    Simplifications.  16-bit and 32-bit code (in 64-bit code the processor ignores
    ES, CS, SS and DS).  No string instructions.  The table has entries for segment
    registers only.  An error message ends the instruction ([Err]).  The address
    size prefix that seg_override sets for operands without symbol is left out. *)
From Coq Require Import ZArith List Bool Lia.
From Verif Require Import Base.
Import ListNotations.
Open Scope Z_scope.

(** H/globals.h 351-359; EMPTY is -1. *)
Definition ES := 0. Definition CS := 1. Definition SS := 2. Definition DS := 3. Definition FS := 4. Definition GS := 5.
Definition NOTHING := -1.

(** What a register is assumed to hold: a segment or a group. *)
Inductive target := TSeg (n : Z) | TGrp (n : Z).
Definition same (a b : target) : bool :=
  match a, b with TSeg m, TSeg n => m =? n | TGrp m, TGrp n => m =? n | _, _ => false end.

(** ModuleInfo.flat_grp *)
Definition FLAT : target := TGrp 0.

(** H/assume.h: struct assume_info *)
Record entry := { a_sym : option target; a_err : bool; a_flat : bool }.
Definition none : entry := {| a_sym := None; a_err := false; a_flat := false |}.
Definition table := list entry.
Definition at_ (t : table) (r : Z) : entry := nth (Z.to_nat r) t none.

(** ** ASSUME *)

(** AssumeInit, assume.c 151-161 *)
Definition init : table := repeat none 6.

Fixpoint put (t : table) (k : nat) (e : entry) : table :=
  match t, k with
  | [], _ => []
  | _ :: r, O => e :: r
  | x :: r, S k => x :: put r k e
  end.

(** One item of the directive. *)
Inductive item :=
| ToNothing (r : Z)              (* reg:NOTHING *)
| ToError (r : Z)                (* reg:ERROR *)
| ToTarget (r : Z) (x : target)  (* reg:segment, reg:group, reg:FLAT, reg:SEG label *)
| ToReg (r q : Z)                (* reg:reg *)
| AllNothing.                    (* NOTHING *)

(** assume.c 298-437; NOTHING must be the last item (302-305, 438-440). *)
Fixpoint assume (t : table) (l : list item) : res table :=
  match l with
  | [] => Ok t
  | AllNothing :: r => match r with [] => Ok init | _ => Err end
  | ToNothing r :: l => assume (put t (Z.to_nat r) {| a_sym := None; a_err := false; a_flat := false |}) l
  | ToError r :: l => assume (put t (Z.to_nat r) {| a_sym := None; a_err := true; a_flat := false |}) l
  | ToTarget r x :: l => assume (put t (Z.to_nat r) {| a_sym := Some x; a_err := false; a_flat := same x FLAT |}) l
  | ToReg r q :: l => assume (put t (Z.to_nat r) {| a_sym := a_sym (at_ t q); a_err := false; a_flat := a_flat (at_ t q) |}) l
  end.

(** ** The search *)

(** segment.c 485-496 GetGroup; [grp]: the groups of the segments.  Groups have
    no segment. *)
Definition GetGroup (grp : Z -> option Z) (x : target) : option target :=
  match x with TSeg n => match grp n with Some g => Some (TGrp g) | None => None end | TGrp _ => None end.

Definition is_sym (e : entry) (x : target) : bool := match a_sym e with Some y => same y x | None => false end.
Definition is_grp (e : entry) (g : target) : bool := (a_flat e && same g FLAT) || is_sym e g.

(** assume.c 79-81 *)
Definition searchtab : list Z := [DS; SS; ES; FS; GS; CS].
Definition first (f : Z -> bool) : Z := match find f searchtab with Some r => r | None => NOTHING end.

(** assume.c 455-497 *)
Definition search_assume (grp : Z -> option Z) (t : table) (x : option target) (def : Z) (search_grps : bool) : Z :=
  match x with
  | None => NOTHING
  | Some x =>
      let g := if search_grps then GetGroup grp x else None in
      let e := at_ t def in
      if negb (def =? NOTHING) && is_sym e x then def
      else if negb (def =? NOTHING) && match g with Some g => is_grp e g | None => false end then def
      else
        let r := first (fun r => is_sym (at_ t r) x) in
        if negb (r =? NOTHING) then r
        else match g with
             | Some g => first (fun r => is_grp (at_ t r) g)
             | None => NOTHING
             end
  end.

(** The symbol of the operand. *)
Inductive state := Undefined | Internal | External | Stack.
Record sym := { y_state : state; y_seg : option Z }.
Definition seg_of (s : sym) : option target := match y_seg s with Some n => Some (TSeg n) | None => None end.

(** assume.c 525-559; called with an override or a symbol. *)
Definition GetAssume (grp : Z -> option Z) (t : table) (over : option target) (s : option sym) (def : Z) : Z * option target :=
  if negb (def =? NOTHING) && a_flat (at_ t def) then (def, Some FLAT)
  else
    let reg :=
      match over, s with
      | Some x, _ => search_assume grp t (Some x) def false
      | None, Some s =>
          match y_state s with
          | Stack => SS
          | _ => search_assume grp t (seg_of s) def true
          end
      | None, None => NOTHING
      end in
    let reg :=
      if reg =? NOTHING then
        match s with
        | Some {| y_state := External; y_seg := None |} => def
        | _ => reg
        end
      else reg in
    if negb (reg =? NOTHING) then (reg, a_sym (at_ t reg)) else (NOTHING, None).

(** GetOverrideAssume, assume.c 505-513 *)
Definition GetOverrideAssume (t : table) (r : Z) : option target :=
  if a_flat (at_ t r) then Some FLAT else a_sym (at_ t r).

(** ** Frame and prefix *)

(** SetFixupFrame with ign_grp FALSE: of a segment or group, and of a symbol;
    [f]: the frame set before. *)
Definition frame_of (x : option target) (f : option target) : option target := match x with Some y => Some y | None => f end.
Definition frame_of_sym (grp : Z -> option Z) (s : sym) (f : option target) : option target :=
  match y_state s with
  | Internal | External =>
      match y_seg s with
      | Some n => match GetGroup grp (TSeg n) with Some g => Some g | None => Some (TSeg n) end
      | None => f
      end
  | _ => f
  end.

(** parser.c 521-557: RegOverride and the frame. *)
Definition check_assume (grp : Z -> option Z) (t : table) (over : option target) (s : option sym) (def : Z) (f : option target) : res (Z * option target) :=
  match s with
  | Some {| y_state := Undefined |} => Ok (NOTHING, f)
  | _ =>
      let '(reg, a) := GetAssume grp t over s def in
      let f := frame_of a f in
      if reg =? NOTHING then
        match s with
        | Some s => match y_seg s with Some _ => Err | None => Ok (def, f) end
        | None => Err
        end
      else Ok (reg, f)
  end.

(** The register that decides: registers by size and number. *)
Inductive reg := R16 (n : Z) | R32 (n : Z) | RDS.

(** parser.c 559-627; [lea]: the instruction is LEA, [ov]: RegOverride. *)
Definition seg_override (grp : Z -> option Z) (t : table) (lea : bool) (r : reg) (s : option sym) (ov : Z) (over : option target) (f : option target)
  : res (Z * option target) :=
  if lea then Ok (NOTHING, match s with Some s => frame_of_sym grp s f | None => f end)
  else
    let def := match r with
               | R16 n => if n =? 5 then SS else DS
               | R32 n => if (n =? 5) || (n =? 4) then SS else DS
               | RDS => DS
               end in
    bindr (if negb (ov =? NOTHING) then
             match s with
             | Some s => Ok (ov, match GetOverrideAssume t ov with Some x => Some x | None => frame_of_sym grp s f end)
             | None => Ok (ov, f)
             end
           else
             match s, over with
             | None, None => Ok (ov, f)
             | _, _ => check_assume grp t over s def f
             end)
          (fun p => Ok (if fst p =? def then NOTHING else fst p, snd p)).

(** Memory operands, set_rm_sib, parser.c 711-880: which register is passed to
    seg_override; comp_mem16, parser.c 490-519. *)
Inductive mem := Direct | Base (b : reg) | Index (i : reg) | Both (b i : reg).

Definition comp_mem16 (a b : Z) : bool := ((a =? 3) || (a =? 5)) && ((b =? 6) || (b =? 7)).

Definition set_rm (m : mem) : res reg :=
  match m with
  | Direct => Ok RDS
  | Base b => Ok b
  | Index _ => Ok RDS
  | Both b (R16 i) =>
      match b with
      | R16 b' =>
          if (i =? 3) || (i =? 5) then if comp_mem16 i b' then Ok (R16 i) else Err
          else if (i =? 6) || (i =? 7) then if comp_mem16 b' i then Ok b else Err
          else Err
      | _ => Err
      end
  | Both b (R32 i) => match b with R32 _ => if i =? 4 then Err else Ok b | _ => Err end
  | Both _ RDS => Err
  end.

(** codegen.c 149-150, 513-515 *)
Definition sr_prefix : list Z := [0x26; 0x2E; 0x36; 0x3E; 0x64; 0x65].
Definition prefix (ov : Z) : list Z := if ov =? NOTHING then [] else [nth (Z.to_nat ov) sr_prefix 0].

(** The prefix and the frame of the fixup of a memory operand; a register that
    is given must not be assumed to ERROR (segm_override, parser.c 925-931). *)
Definition operand (grp : Z -> option Z) (t : table) (lea : bool) (m : mem) (s : option sym) (ov : Z) (over : option target) : res (list Z * option target) :=
  if negb (ov =? NOTHING) && a_err (at_ t ov) then Err
  else bindr (set_rm m) (fun r => bindr (seg_override grp t lea r s ov over None) (fun p => Ok (prefix (fst p), snd p))).
