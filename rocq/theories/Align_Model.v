(** Model of posndir.c: ALIGN, EVEN and the filling of alignment gaps. *)
From Verif Require Import Base.

(** posndir.c:44-51 *)
Definition NopList16 : list Z := [3; 0x2E; 0x8b; 0xc0; 0x8b; 0xc0; 0x90].
(** posndir.c:58-72 *)
Definition NopList32 : list Z :=
  [7; 0x8d; 0xa4; 0x24; 0; 0; 0; 0;
      0x8d; 0x80; 0; 0; 0; 0;
      0x2e; 0x8d; 0x44; 0x20; 0x00;
      0x8d; 0x44; 0x20; 0x00;
      0x8d; 0x40; 0x00;
      0x8b; 0xff;
      0x90].
(** posndir.c:75-84 *)
Definition NopList64 : list Z :=
  [7; 0x0f; 0x1f; 0x80; 0; 0; 0; 0;
      0x66; 0x0f; 0x1f; 0x44; 0; 0;
      0x0f; 0x1f; 0x44; 0; 0;
      0x0f; 0x1f; 0x40; 0;
      0x0f; 0x1f; 0;
      0x66; 0x90;
      0x90].

(** ModuleInfo.Ofssize *)
Inductive ofssize := USE16 | USE32 | USE64.
(** posndir.c:87 NopLists[] *)
Definition NopLists (o : ofssize) : list Z :=
  match o with USE16 => NopList16 | USE32 => NopList32 | USE64 => NopList64 end.

(** bytes lst[i] .. lst[i+n-1]; outside of the table is UB *)
Fixpoint nop_bytes (lst : list Z) (i n : nat) : res (list Z) :=
  match n with
  | O => Ok []
  | S n => match nth_error lst i with
           | Some b => bindr (nop_bytes lst (S i) n) (fun l => Ok (b :: l))
           | None => UB
           end
  end.

(** posndir.c:171-173: the index of the first NOP of at most [size] bytes *)
Fixpoint nop_index (nop_type : nat) (size : Z) (i : nat) : nat * nat :=
  match nop_type with
  | O => (O, i)
  | S k => if Z.of_nat nop_type >? size then nop_index k size (i + nop_type) else (nop_type, i)
  end.

(** posndir.c:161-178: the code branch of fill_in_objfile_space ([fuel]
    bounds the while loop) *)
Fixpoint nop_fill (fuel : nat) (lst : list Z) (size : Z) : res (list Z) :=
  match fuel with
  | O => Err
  | S fuel =>
      let mx := nth 0 lst 0 in
      if size >? mx then
        bindr (nop_bytes lst 1 (Z.to_nat mx)) (fun a =>
        bindr (nop_fill fuel lst (size - mx)) (fun b => Ok (a ++ b)))
      else if size =? 0 then Ok []
      else let '(nop_type, i) := nop_index (Z.to_nat mx) size 1 in nop_bytes lst i nop_type
  end.

(** globals.h:598-610 enum seg_type; only the test for SEGTYPE_CODE matters *)
Record seg := { written : bool; is_code : bool; alignment : Z; loc : Z }.

(** what happens at the current location: the location counter is moved
    without output (SetCurrOffset, comdat), or bytes are output *)
Inductive filler := Skip (n : Z) | Emit (l : list Z).

(** posndir.c:139-180 fill_in_objfile_space *)
Definition fill_in_objfile_space (o : ofssize) (s : seg) (size : Z) : res filler :=
  if negb (written s) then Ok (Skip size)
  else if negb (is_code s) then Ok (Emit (repeat 0 (Z.to_nat size)))
  else bindr (nop_fill (S (Z.to_nat size)) (NopLists o) size) (fun l => Ok (Emit l)).

(** posndir.c:184-197 AlignCurrOffset; 1 << value overflows for value > 30 *)
Definition AlignCurrOffset (o : ofssize) (s : seg) (value : Z) : res filler :=
  if (value <? 0) || (value >? 30) then UB
  else
    let alignment := Z.shiftl 1 value in
    let seg_align := loc s mod alignment in
    if negb (seg_align =? 0) then fill_in_objfile_space o s (alignment - seg_align)
    else Ok (Emit []).

(** posndir.c:219-220: the search for a power of 2 (int_32); shifting
    0x40000000 left overflows *)
Fixpoint power_loop (n : nat) (power value : Z) : res Z :=
  if power <? value then
    match n with
    | O => UB
    | S n => power_loop n (Z.shiftl power 1) value
    end
  else Ok power.

(** globals.h MAX_SEGALIGNMENT, segment.c:232-240 GetCurrSegAlign *)
Definition MAX_SEGALIGNMENT := 0xff.
Definition GetCurrSegAlign (s : seg) : Z :=
  if alignment s =? MAX_SEGALIGNMENT then 0x40 else wrap 32 (Z.shiftl 1 (alignment s)).

(** the argument of ALIGN: a constant (64-bit), none, or EVEN *)
Inductive align_arg := ArgConst (v : Z) | ArgEmpty | ArgEven.

(** ModuleInfo.flat_grp: NULL, or its isdefined bit; whether Parse_Pass is PASS_1 *)
Record amod := { flat_grp : option bool; pass1 : bool }.

(** posndir.c:253-259: the warning ALIGN_TOO_HIGH; the test dereferences
    flat_grp, which is NULL unless FLAT was used (segment.c:468) *)
Definition too_high (md : amod) (o : ofssize) (align_value seg_align : Z) : res bool :=
  if align_value >? seg_align then
    if pass1 md then
      match flat_grp md with
      | None => UB
      | Some isdefined => Ok (negb isdefined && match o with USE64 => false | _ => true end)
      end
    else Ok false
  else Ok false.

(** posndir.c:213-242: align_value *)
Definition align_value_of (s : seg) (a : align_arg) : res Z :=
  match a with
  | ArgConst v =>
      let value := swrap 32 v in
      bindr (power_loop 30 1 value) (fun power =>
        if negb (power =? value) then Err else Ok value)
  | ArgEmpty => Ok (swrap 32 (GetCurrSegAlign s))
  | ArgEven => Ok 2
  end.

(** posndir.c:201-276 AlignDirective outside of STRUCT, inside of a segment.
    [opndx.value] is the low half of the constant, as an int_32. The result
    says whether there was a warning, and what is put at the location. *)
Definition AlignDirective (md : amod) (o : ofssize) (s : seg) (a : align_arg) : res (bool * filler) :=
  bindr (align_value_of s a)
    (fun align_value =>
       if swrap 32 (GetCurrSegAlign s) <=? 0 then Err
       else
         bindr (too_high md o align_value (swrap 32 (GetCurrSegAlign s))) (fun warn =>
         let seg_align := loc s mod wrap 32 align_value in
         if negb (seg_align =? 0) then
           bindr (fill_in_objfile_space o s (align_value - seg_align)) (fun f => Ok (warn, f))
         else Ok (warn, Emit []))).
