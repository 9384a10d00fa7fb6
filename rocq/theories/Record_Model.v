(** Model of RECORD types: RecordDirective (types.c), the RECORD part of
    InitStructuredVar and ShiftLeft (data.c), GetRecordMask and the operators
    WIDTH and MASK (expreval.c).
    Err = an error message. The directive is modelled for a new record in
    pass 1 (no redefinition). An expression is the number EvalOperand returns,
    None = an error or not a constant. Syntax errors are left out. *)
From Verif Require Import Base.

Definition MAXRECBITS := 128. (* types.c:35 *)

(** struct sfield of a bit field *)
Record field := { f_name : list Z; f_width : Z (* total_size, uint_32 *); f_ivalue : option Z; f_offset : Z (* int_32 *) }.
(** one item of the directive: name:width[=ivalue] *)
Record item := { i_name : list Z; i_width : option Z; i_ivalue : option Z }.
Record record := { r_size : Z; r_fields : list field }.

Fixpoint same (a b : list Z) : bool :=
  match a, b with
  | [], [] => true
  | x :: a, y :: b => (x =? y) && same a b
  | _, _ => false
  end.
Definition known (names : list (list Z)) (n : list Z) : bool := existsb (same n) names.

(** types.c:1830-1930: the bit count and the fields; [names] is the global symbol table *)
Fixpoint parse_fields (names : list (list Z)) (cntBits : Z) (items : list item) : res (Z * list field) :=
  match items with
  | [] => Ok (cntBits, [])
  | it :: items =>
      match i_width it with
      | None => Err
      | Some v =>
          let value := swrap 32 v in
          if value =? 0 then Err
          else if value + cntBits <? - 2 ^ 31 then UB
          else if value + cntBits >? MAXRECBITS then Err
          else if known names (i_name it) then Err
          else
            let f := {| f_name := i_name it; f_width := wrap 32 value; f_ivalue := i_ivalue it; f_offset := 0 |} in
            bindr (parse_fields (i_name it :: names) (cntBits + value) items) (fun '(cnt, fl) => Ok (cnt, f :: fl))
      end
  end.
(** types.c:1936-1961 *)
Definition record_size (cntBits : Z) : Z :=
  if cntBits >? 16 then if cntBits >? 64 then 16 else if cntBits >? 32 then 8 else 4
  else if cntBits >? 8 then 2 else 1.
(** types.c:1966-1969 *)
Fixpoint set_positions (cntBits : Z) (fl : list field) : list field :=
  match fl with
  | [] => []
  | f :: fl =>
      let cntBits := swrap 32 (cntBits - f_width f) in
      {| f_name := f_name f; f_width := f_width f; f_ivalue := f_ivalue f; f_offset := cntBits |} :: set_positions cntBits fl
  end.
(** types.c:1777-1982 RecordDirective *)
Definition RecordDirective (names : list (list Z)) (items : list item) : res record :=
  bindr (parse_fields names 0 items) (fun '(cnt, fl) =>
  Ok {| r_size := record_size cnt; r_fields := set_positions cnt fl |}).

(** ** initialised data *)
(** data.c:94-113 ShiftLeft with *dstHi = *dstLo = 0. The count of the right
    shift is negative, which C leaves undefined: here it is taken modulo 64,
    as the x86-64 shift instructions do. *)
Definition ShiftLeft (num pos : Z) : Z * Z :=
  if pos >=? 64 then (wrap 64 (Z.shiftl num (pos - 64)), 0)
  else (Z.shiftr num (Z.lnot pos mod 64), wrap 64 (Z.shiftl num pos)).

(** an initializer: empty, or an expression *)
Inductive init := Empty | Value (v : option Z).
(** data.c:309-344: [hi] is the upper half of opndx.llvalue, (dst128Hi, dst128Lo) the 128-bit
    value, [lo] dwRecInit *)
Record acc := { hi : Z; dstHi : Z; dstLo : Z; rec_init : Z; is_set : bool }.
Definition store (size : Z) (f : field) (a : acc) (v : Z) (set : bool) : res acc :=
  let llvalue := wrap 64 v in
  (* uint_32 dwMax = 1 << total_size, compared with the low half *)
  if (f_width f <? 32) && (wrap 32 v >=? 2 ^ f_width f) then Err
  else
    let '(h, l) := ShiftLeft llvalue (f_offset f) in
    Ok {| hi := llvalue / 2 ^ 32;
          dstHi := if size =? 16 then Z.lor (dstHi a) h else dstHi a;
          dstLo := if size =? 16 then Z.lor (dstLo a) l else dstLo a;
          rec_init := if size =? 16 then rec_init a else Z.lor (rec_init a) (wrap 64 (Z.shiftl llvalue (f_offset f)));
          is_set := set || is_set a |}.
Definition init_field (size : Z) (f : field) (x : init) (a : acc) : res acc :=
  match x with
  | Value None => Err
  | Value (Some v) => store size f a v true
  | Empty => match f_ivalue f with
             | Some v => store size f a v true
             | None => store size f a (hi a * 2 ^ 32) false (* opndx.value = 0 sets the low half only *)
             end
  end.
Fixpoint init_fields (size : Z) (fl : list field) (xs : list init) (a : acc) : res acc :=
  match fl with
  | [] => match xs with [] => Ok a | _ => Err end (* too many initial values *)
  | f :: fl =>
      let '(x, xs) := match xs with [] => (Empty, []) | x :: xs => (x, xs) end in
      bindr (init_field size f x a) (init_fields size fl xs)
  end.
Inductive output := Bytes (l : list Z) | Space (n : Z).
(** data.c:239-455 for a RECORD; [garbage] is the upper half of opndx.llvalue on entry *)
Definition InitRecord (garbage : Z) (r : record) (xs : list init) : res output :=
  bindr (init_fields (r_size r) (r_fields r) xs {| hi := garbage; dstHi := 0; dstLo := 0; rec_init := 0; is_set := false |}) (fun a =>
  Ok (if is_set a then
        if r_size r =? 16 then Bytes (le_bytes 8 (dstLo a) ++ le_bytes 8 (dstHi a))
        else Bytes (le_bytes (Z.to_nat (r_size r)) (rec_init a))
      else Space (r_size r))).

(** ** WIDTH and MASK *)
(** the positions offset ... offset + total_size - 1 *)
Fixpoint or_bits (n : nat) (i : Z) (mask : Z) : res Z :=
  match n with
  | O => Ok mask
  | S n => if i >=? 64 then UB else or_bits n (i + 1) (Z.lor mask (Z.shiftl 1 i))
  end.
(** expreval.c:2497-2505 *)
Definition field_mask (f : field) : res Z := or_bits (Z.to_nat (f_width f)) (f_offset f) 0.
(** expreval.c:774-798 *)
Fixpoint masks (fl : list field) (mask : Z) : res Z :=
  match fl with
  | [] => Ok mask
  | f :: fl => bindr (or_bits (Z.to_nat (f_width f)) (f_offset f) mask) (masks fl)
  end.
Definition GetRecordMask (r : record) : res Z := masks (r_fields r) 0.
(** expreval.c:2510-2517 *)
Definition field_width (f : field) : Z := swrap 32 (f_width f).
Definition record_width (r : record) : Z := fold_left (fun v f => swrap 32 (v + f_width f)) (r_fields r) 0.
