(** Model of STRUCT/UNION definitions (types.c): CreateStructField,
    AlignInStruct, UpdateStructSize, SetStructCurrentOffset,
    EndstructDirective and SearchNameInStruct, pass 1.
    Err = an error message. Left out: initial values, the global names of
    -Zm, listing, SIMD/COM flags, redefinitions, and fields whose type is a
    RECORD or a TYPEDEF with members. A field's total_size is set by
    data_item after CreateStructField; here it is passed in. *)
From Verif Require Import Base.

Definition MAX_STRUCT_ALIGN := 64.    (* H/globals.h:72 *)
Definition MAX_STRUCT_NESTING := 32.  (* H/globals.h:77 *)

(** struct sfield (H/symbols.h): name ([] = anonymous), offset, total_size and,
    for a field of a STRUCT/UNION type, the field list of that type *)
Inductive sfield := SF (nm : list Z) (off tsize : Z) (sub : option (list sfield)).
Definition f_name f := match f with SF n _ _ _ => n end.
Definition f_off f := match f with SF _ o _ _ => o end.
Definition f_size f := match f with SF _ _ s _ => s end.
Definition f_sub f := match f with SF _ _ _ s => s end.

(** ** SearchNameInStruct *)
Definition toupper (c : Z) : Z := if (97 <=? c) && (c <=? 122) then c - 32 else c.
(** memcmp or _memicmp = 0 (symbols.c:171) *)
Fixpoint same (cs : bool) (a b : list Z) : bool :=
  match a, b with
  | [], [] => true
  | x :: a, y :: b => (if cs then x =? y else toupper x =? toupper y) && same cs a b
  | _, _ => false
  end.
(** len == name_size && SymCmpFunc() == 0 (types.c:115) *)
Definition name_match (cs : bool) (name nm : list Z) : bool := (zlen name =? zlen nm) && same cs name nm.

(** run a search over a list; the flag says that an error was emitted *)
Definition first_of {A B} (p : A -> bool * option B) : list A -> bool * option B :=
  fix go l := match l with
              | [] => (false, None)
              | x :: l => match p x with
                          | (e, Some r) => (e, Some r)
                          | (e, None) => let '(e', r) := go l in (e || e', r)
                          end
              end.
(** the result is the field found and the value added to *poffset *)
Definition add_off (off : Z) (r : bool * option (sfield * Z)) : bool * option (sfield * Z) :=
  match r with (e, Some (f, p)) => (e, Some (f, wrap 32 (p + off))) | _ => r end.
(** types.c:98-119, one field; [level] is already incremented *)
Fixpoint search_field (cs : bool) (name : list Z) (level : Z) (f : sfield) : bool * option (sfield * Z) :=
  match f with
  | SF [] off _ (Some fl) =>
      add_off off (if level >=? MAX_STRUCT_NESTING then (true, None) else first_of (search_field cs name (level + 1)) fl)
  | SF [] _ _ None => (false, None)
  | SF nm _ _ _ => if name_match cs name nm then (false, Some (f, 0)) else (false, None)
  end.
(** types.c:83-121 *)
Definition SearchNameInStruct (cs : bool) (name : list Z) (level : Z) (fl : list sfield) : bool * option (sfield * Z) :=
  if level >=? MAX_STRUCT_NESTING then (true, None) else first_of (search_field cs name (level + 1)) fl.
Definition found (r : bool * option (sfield * Z)) : bool := match r with (e, o) => e || (match o with Some _ => true | None => false end) end.
(** types.c:1168-1192 CheckAnonymousStruct: true = error; [outer] = fields of CurrStruct *)
Fixpoint CheckAnonymousStruct (cs : bool) (outer : list sfield) (f : sfield) : bool :=
  match f with
  | SF [] _ _ (Some fl) => existsb (CheckAnonymousStruct cs outer) fl
  | SF [] _ _ None => false
  | SF nm _ _ _ => found (SearchNameInStruct cs nm 0 outer)
  end.

(** ** the current structure: CurrStruct->sym and CurrStruct->e.structinfo *)
Record cur := { is_union : bool; alignment : Z; offset : Z (* int_32 *); total_size : Z (* uint_32 *); max_mbr_size : Z (* uint_32 *); head : list sfield; OrgInside : bool }.
Definition s32 := swrap 32.
Definition u32 := wrap 32.
Definition set_offset (c : cur) (o : Z) : cur := {| is_union := is_union c; alignment := alignment c; offset := o; total_size := total_size c; max_mbr_size := max_mbr_size c; head := head c; OrgInside := OrgInside c |}.
Definition set_total (c : cur) (t : Z) : cur := {| is_union := is_union c; alignment := alignment c; offset := offset c; total_size := t; max_mbr_size := max_mbr_size c; head := head c; OrgInside := OrgInside c |}.
Definition set_max (c : cur) (m : Z) : cur := {| is_union := is_union c; alignment := alignment c; offset := offset c; total_size := total_size c; max_mbr_size := m; head := head c; OrgInside := OrgInside c |}.
Definition add_field (c : cur) (f : sfield) : cur := {| is_union := is_union c; alignment := alignment c; offset := offset c; total_size := total_size c; max_mbr_size := max_mbr_size c; head := head c ++ [f]; OrgInside := OrgInside c |}.
Definition set_org (c : cur) : cur := {| is_union := is_union c; alignment := alignment c; offset := offset c; total_size := total_size c; max_mbr_size := max_mbr_size c; head := head c; OrgInside := true |}.

(** (offset + (a - 1)) & (-a) in int arithmetic *)
Definition align_int (offset a : Z) : res Z := if offset + (a - 1) >=? 2 ^ 31 then UB else Ok (Z.land (offset + (a - 1)) (- a)).
(** if ( offset > total_size ) total_size = offset, a comparison of unsigned values *)
Definition raise_total (c : cur) (o : Z) : cur := if u32 o >? total_size c then set_total c (u32 o) else c.

(** types.c:1329-1353: offset of a new field *)
Definition field_offset (c : cur) (size : Z) : res Z :=
  if alignment c >? 1 then
    if alignment c <? size then align_int (offset c) (alignment c)
    else if negb (size =? 0) then Ok (s32 (Z.land (u32 (offset c + (size - 1))) (u32 (- size))))
    else Ok (offset c)
  else Ok (offset c).
(** types.c:1202-1394 CreateStructField; [vt] = fields and max_mbr_size of a
    STRUCT/UNION type *)
Definition CreateStructField (cs : bool) (c : cur) (name : list Z) (vt : option (list sfield * Z)) (size tsize : Z) : res cur :=
  let err := match name with
             | _ :: _ => found (SearchNameInStruct cs name 0 (head c))
             | [] => match vt with Some (fl, _) => existsb (CheckAnonymousStruct cs (head c)) fl | None => false end
             end in
  if err then Err
  else
    let size := match vt with Some (_, m) => m | None => size end in
    bindr (field_offset c size) (fun off =>
    let c1 := if (alignment c >? 1) && negb (is_union c) then raise_total (set_offset c off) off else c in
    let c2 := if size >? max_mbr_size c1 then set_max c1 size else c1 in
    Ok (add_field c2 (SF name off tsize (match vt with Some (fl, _) => Some fl | None => None end)))).
(** types.c:1415-1434 *)
Definition UpdateStructSize (c : cur) (tsize : Z) : cur :=
  if is_union c then if tsize >? total_size c then set_total c tsize else c
  else
    let c := set_offset c (s32 (offset c + tsize)) in
    if offset c >? s32 (total_size c) then set_total c (u32 (offset c)) else c.
(** types.c:1399-1410; posndir.c:243 *)
Definition AlignInStruct (c : cur) (value : Z) : res cur :=
  if is_union c then Ok c
  else bindr (align_int (offset c) value) (fun o => Ok (raise_total (set_offset c o) o)).
(** types.c:1439-1452; posndir.c:109 *)
Definition SetStructCurrentOffset (c : cur) (o : Z) : res cur :=
  if is_union c then Err
  else
    let c := set_org (set_offset c o) in
    Ok (if o >? s32 (total_size c) then set_total c (u32 o) else c).

(** types.c:1074-1101: the size of a finished structure *)
Definition min_offset (fl : list sfield) : Z := fold_left (fun m f => if f_off f <? m then f_off f else m) fl 0.
Definition finish (c : cur) : cur :=
  let c := if OrgInside c then set_total c (u32 (total_size c - min_offset (head c))) else c in
  if alignment c >? 1 then
    let size := if max_mbr_size c =? 0 then max_mbr_size c + 1 else max_mbr_size c in
    let size := if size >? alignment c then alignment c else size in
    set_total c (Z.land (u32 (total_size c + size - 1)) (u32 (- size)))
  else c.

(** types.c:341-345, and the zeroed symbol *)
Definition open_struct (union : bool) (al : Z) : cur :=
  {| is_union := union; alignment := al; offset := 0; total_size := 0; max_mbr_size := 0; head := []; OrgInside := false |}.

(** the lines between STRUCT and ENDS *)
Inductive def :=
  | DField (name : list Z) (size tsize : Z) (vt : option (list sfield * Z))  (* data_dir: data.c:1379, 1562 *)
  | DAlign (v : Z)                                                           (* ALIGN, EVEN *)
  | DOrg (o : Z)
  | DStruct (union : bool) (name : list Z) (body : list def).                (* embedded STRUCT/UNION ... ENDS *)

Definition run_all {A S} (f : A -> S -> res S) : list A -> S -> res S :=
  fix go l s := match l with [] => Ok s | x :: l => bindr (f x s) (go l) end.
Fixpoint run (cs : bool) (d : def) (c : cur) : res cur :=
  match d with
  | DField name size tsize vt => bindr (CreateStructField cs c name vt size tsize) (fun c => Ok (UpdateStructSize c tsize))
  | DAlign v => AlignInStruct c v
  | DOrg o => SetStructCurrentOffset c o
  | DStruct union name body =>
      (* types.c:259-266: the name must be new *)
      if match name with [] => false | _ => found (SearchNameInStruct cs name 0 (head c)) end then Err
      else
        bindr (run_all (run cs) body (open_struct union (alignment c))) (fun inner =>
        let dir := finish inner in
        (* types.c:1111-1119 *)
        bindr (match CreateStructField cs c name (Some (head dir, max_mbr_size dir)) (total_size dir) (total_size dir) with
               | Err => match name with [] => Err | _ => UB end (* the result is used without a check *)
               | r => r
               end) (fun c =>
        (* types.c:1150-1153 *)
        let c := if max_mbr_size dir >? max_mbr_size c then set_max c (max_mbr_size dir) else c in
        Ok (UpdateStructSize c (total_size dir))))
  end.

(** types.c:223-243: the alignment argument; the default is 1 << fieldalign *)
Fixpoint power_loop (n : nat) (power v : Z) : Z :=
  match n with O => power | S n => if power <? v then power_loop n (power * 2) v else power end.
Definition StructAlignment (fieldalign : Z) (arg : option Z) : res Z :=
  match arg with
  | None => Ok (2 ^ fieldalign)
  | Some a =>
      let v := s32 a in
      if v >? MAX_STRUCT_ALIGN then Err
      else let power := power_loop 7 1 v in if negb (power =? v) then Err else Ok v
  end.
(** a top level STRUCT/UNION ... ENDS *)
Definition StructDef (cs : bool) (union : bool) (fieldalign : Z) (arg : option Z) (body : list def) : res cur :=
  bindr (StructAlignment fieldalign arg) (fun al =>
  bindr (run_all (run cs) body (open_struct union al)) (fun c => Ok (finish c))).
