(** Model of the name records written by omf.c: LNAMES, EXTDEF (with WKEXT
    comments), COMDEF and PUBDEF, their splitting into records and the
    numbering of names and externals. *)
From Verif Require Import Base OmfRec_Model.

(** omf.c:58-60, mangle.h MANGLE_BYTES *)
Definition MAX_LNAME_SIZE := 1024.
Definition MAX_EXT_LENGTH := 1020.
Definition MAX_PUB_LENGTH := 1024.
Definition MANGLE_BYTES := 8.

(** omfspec.h:176-201, 252-283 *)
Definition CMD_EXTDEF := 0x8c.
Definition CMD_PUBDEF := 0x90.
Definition CMD_LNAMES := 0x96.
Definition CMD_COMDEF := 0xb0.
Definition CMT_TNP := 0x80.
Definition CMT_WKEXT := 0xa8.

(** omf.c:147-157 omf_InitRec + 254-261 AttachData: a record with given contents *)
Definition mk_rec (cmd : Z) (data : list Z) : omf_rec :=
  {| r_cmd := cmd; r_is32 := 0; r_data := data; r_d := D_none |}.

(** _strupr on ASCII names *)
Definition toupper (c : Z) : Z := if (97 <=? c) && (c <=? 122) then c - 32 else c.
Definition strupr (s : list Z) : list Z := map toupper s.

(** ** LNAMES, omf.c:921-980.  The queue is given as the list of names.
    Result: the records, the value stored to lname_idx for each queue item
    (in order), and the final [startitem]. *)
Fixpoint lnames_loop (case_sensitive : bool) (q : list (list Z)) (buffer : list Z)
    (items startitem : Z) : list omf_rec * list Z * Z :=
  match q with
  | [] =>
      if negb (zlen buffer =? 0) then ([mk_rec CMD_LNAMES buffer], [], items)
      else ([], [], startitem)
  | name :: rest =>
      let name_size := zlen name in
      let '(recs0, buffer, startitem) :=
        if zlen buffer + name_size + 4 >? MAX_LNAME_SIZE then
          if negb (zlen buffer =? 0) then ([mk_rec CMD_LNAMES buffer], [], items)
          else ([], [], startitem)
        else ([], buffer, startitem) in
      let text := if case_sensitive then name else strupr name in
      let buffer := buffer ++ [wrap 8 name_size] ++ text in
      let items := items + 1 in
      let '(recs, idxs, si) := lnames_loop case_sensitive rest buffer items startitem in
      (recs0 ++ recs, items :: idxs, si)
  end.
Definition omf_write_lnames (case_sensitive : bool) (q : list (list Z)) :=
  lnames_loop case_sensitive q [0] 1 1.

(** ** Symbols as seen by the external writers.  Symbols are numbered; [st]
    maps numbers to symbols.  [s_name] is the text produced by Mangle and,
    with convert_uppercase, _strupr.  [s_idx1]/[s_idx2] are the two halves of
    the union symbols.h:270-276. *)
Record sym := {
  s_name : list Z;
  s_iscomm : bool; s_weak : bool; s_external : bool; s_isfar : bool;
  s_altname : option nat;
  s_included : bool;
  s_idx1 : Z; s_idx2 : Z;
  s_varsize : Z;       (* SizeFromMemtype() *)
  s_total_size : Z; s_total_length : Z }.
Definition store := nat -> sym.
Definition upd (st : store) (i : nat) (s : sym) : store :=
  fun j => if Nat.eqb j i then s else st j.
Definition set_idx1 (s : sym) (v : Z) : sym :=
  {| s_name := s_name s; s_iscomm := s_iscomm s; s_weak := s_weak s; s_external := s_external s;
     s_isfar := s_isfar s; s_altname := s_altname s; s_included := s_included s;
     s_idx1 := wrap 16 v; s_idx2 := s_idx2 s; s_varsize := s_varsize s;
     s_total_size := s_total_size s; s_total_length := s_total_length s |}.
Definition set_idx2 (s : sym) (v : Z) (inc : bool) : sym :=
  {| s_name := s_name s; s_iscomm := s_iscomm s; s_weak := s_weak s; s_external := s_external s;
     s_isfar := s_isfar s; s_altname := s_altname s; s_included := inc;
     s_idx1 := s_idx1 s; s_idx2 := wrap 16 v; s_varsize := s_varsize s;
     s_total_size := s_total_size s; s_total_length := s_total_length s |}.

(** omf.c:982-986 struct readext *)
Record readext := { rx_p : list nat; rx_index : Z; rx_method : Z }.

(** omf.c:1000-1012 the loop for method 0 *)
Fixpoint get_alt (st : store) (p : list nat) (index : Z) : option nat * store * list nat * Z :=
  match p with
  | [] => (None, st, [], index)
  | i :: p =>
      if s_iscomm (st i) then get_alt st p index
      else match s_altname (st i) with
           | Some a =>
               if s_included (st a) then get_alt st p index
               else (Some a, upd st a (set_idx2 (st a) index true), p, wrap 16 (index + 1))
           | None => get_alt st p index
           end
  end.
(** omf.c:1015-1024 the loop for method 1 *)
Fixpoint get_ext (st : store) (p : list nat) (index : Z) : option nat * store * list nat * Z :=
  match p with
  | [] => (None, st, [], index)
  | i :: p =>
      if s_iscomm (st i) || s_weak (st i) then get_ext st p index
      else (Some i, upd st i (set_idx1 (st i) index), p, wrap 16 (index + 1))
  end.
(** omf.c:995-1026 GetExt; [exts] is SymTables[TAB_EXT] *)
Definition GetExt (exts : list nat) (st : store) (r : readext) : option nat * store * readext :=
  let step1 st p index :=
    let '(s, st, p, index) := get_ext st p index in
    (s, st, {| rx_p := p; rx_index := index; rx_method := 1 |}) in
  if rx_method r =? 0 then
    let '(s, st', p, index) := get_alt st (rx_p r) (rx_index r) in
    match s with
    | Some a => (Some a, st', {| rx_p := p; rx_index := index; rx_method := 0 |})
    | None => step1 st' exts index
    end
  else step1 st (rx_p r) (rx_index r).

(** omf.c:1056-1085 the record loop of omf_write_extdef: [cur] is the symbol
    last returned by GetExt; when it does not fit, the record is written and
    the symbol goes to the next one. *)
Fixpoint extdef_loop (fuel : nat) (exts : list nat) (st : store) (r : readext)
    (cur : option nat) (data : list Z) : res (list omf_rec * store * Z) :=
  match fuel with
  | O => UB
  | S fuel =>
    let flush := if negb (zlen data =? 0) then [mk_rec CMD_EXTDEF data] else [] in
    match cur with
    | None => Ok (flush, st, rx_index r)
    | Some s =>
        let len := zlen (s_name (st s)) in
        if zlen data + len + 2 >=? MAX_EXT_LENGTH then
          bindr (extdef_loop fuel exts st r (Some s) [])
            (fun '(recs, st, i) => Ok (flush ++ recs, st, i))
        else
          let data := data ++ [wrap 8 len] ++ s_name (st s) ++ [0] in
          let '(cur, st, r) := GetExt exts st r in
          extdef_loop fuel exts st r cur data
    end
  end.

(** omf.c:222-230 PutIndex into a record under construction, then TruncRec *)
Definition rec_index (v : Z) : list Z :=
  if v >? 0x7f then [wrap 8 (Z.lor 0x80 (Z.shiftr v 8)); wrap 8 (Z.land v 0xff)]
  else [wrap 8 (Z.land v 0xff)].

(** omf.c:1093-1103 WKEXT comment records *)
Fixpoint wkext_loop (st : store) (p : list nat) : list omf_rec :=
  match p with
  | [] => []
  | i :: p =>
      match s_iscomm (st i), s_altname (st i) with
      | false, Some a =>
          {| r_cmd := CMD_COMENT; r_is32 := 0;
             r_data := rec_index (s_idx1 (st i)) ++ rec_index (s_idx2 (st a));
             r_d := D_coment CMT_TNP CMT_WKEXT |} :: wkext_loop st p
      | _, _ => wkext_loop st p
      end
  end.

(** omf.c:1107-1113: [altname->ext_idx = 0] clears both halves *)
Fixpoint reset_loop (st : store) (p : list nat) : store :=
  match p with
  | [] => st
  | i :: p =>
      match s_iscomm (st i), s_altname (st i) with
      | false, Some a =>
          if s_external (st a) then reset_loop st p
          else reset_loop (upd st a (set_idx1 (set_idx2 (st a) 0 (s_included (st a))) 0)) p
      | _, _ => reset_loop st p
      end
  end.

(** omf.c:1033-1123 omf_write_extdef *)
Definition omf_write_extdef (exts : list nat) (st : store) : res (list omf_rec * store * Z) :=
  let r := {| rx_p := exts; rx_index := 1; rx_method := 0 |} in
  let '(cur, st, r) := GetExt exts st r in
  bindr (extdef_loop (4 * length exts + 2) exts st r cur [])
    (fun '(recs, st, index) => Ok (recs ++ wkext_loop st exts, reset_loop st exts, index)).

(** ** COMDEF *)
(** omf.c:1127-1142 *)
Definition get_size_of_comdef_number (value : Z) : Z :=
  if value <? 128 then 1
  else if value <=? 0xffff then 3
  else if value <=? 2 ^ 24 - 1 then 4
  else 5.

(** omf.c:1159-1162 the byte loop (i = 1 .. symsize-1) *)
Fixpoint put_le (n : nat) (value : Z) : list Z :=
  match n with
  | O => []
  | S n => Z.rem value 256 :: put_le n (Z.shiftr value 8)
  end.
(** omf.c:1146-1164 put_comdef_number: the bytes stored.  For symsize 1 the
    byte is stored and the loop does not run. *)
Definition put_comdef_number (value : Z) : list Z :=
  let symsize := get_size_of_comdef_number value in
  match symsize with
  | 1 => [wrap 8 value]
  | 3 => 0x81 :: put_le (Z.to_nat (symsize - 1)) value
  | 4 => 0x84 :: put_le (Z.to_nat (symsize - 1)) value
  | 5 => 0x88 :: put_le (Z.to_nat (symsize - 1)) value
  | _ => []
  end.

(** omf.c:1215-1229 type byte and numbers of one communal variable.  The
    division by a zero total_length is undefined behaviour. *)
Definition comdef_number (s : sym) : res (list Z) :=
  bindr (if s_varsize s =? 0 then
           if s_total_length s =? 0 then UB else Ok (s_total_size s / s_total_length s)
         else Ok (s_varsize s))
    (fun varsize =>
       Ok (if s_isfar s then
             0x61 :: put_comdef_number (s_total_length s) ++ put_comdef_number varsize
           else 0x62 :: put_comdef_number (wrap 32 (s_total_length s * varsize)))).

(** omf.c:1195-1256 the nested loops of omf_write_comdef.  [num] counts the
    names of the current record.  Note that the index is assigned before the
    check whether the item still fits. *)
Fixpoint comdef_loop (fuel : nat) (st : store) (curr : list nat) (index : Z)
    (num : Z) (data : list Z) : res (list omf_rec * store * Z) :=
  match fuel with
  | O => UB
  | S fuel =>
    let flush := if num >? 0 then [mk_rec CMD_COMDEF data] else [] in
    match curr with
    | [] => Ok (flush, st, index)
    | i :: rest =>
        if s_iscomm (st i) then
          let s := st i in
          bindr (comdef_number s) (fun number =>
          let st := upd st i (set_idx2 (set_idx1 s index) 0 (s_included s)) in
          let index := wrap 16 (index + 1) in
          let symsize := zlen (s_name s) in
          if zlen data + symsize + zlen number + 2 >? MAX_EXT_LENGTH then
            bindr (comdef_loop fuel st curr index 0 [])
              (fun '(recs, st, i) => Ok (flush ++ recs, st, i))
          else
            comdef_loop fuel st rest index (num + 1)
              (data ++ [wrap 8 symsize] ++ s_name s ++ [0] ++ number))
        else comdef_loop fuel st rest index num data
    end
  end.
Definition omf_write_comdef (exts : list nat) (st : store) (index : Z) :=
  comdef_loop (2 * length exts + 2) st exts index 0 [].

(** ** PUBDEF, omf.c:1367-1475 *)
(** a public symbol: name_size of the undecorated name, decorated text,
    segment (a number; None for absolute symbols), offset (int_32, as bits) *)
Record pubsym := { p_name_size : Z; p_name : list Z; p_seg : option nat; p_offset : Z }.
(** what the writer uses of a segment: COMDAT?, GetSegIdx, omf_GetGrpIdx(GetGroup()) *)
Record seginfo := { sg_comdat : bool; sg_segidx : Z; sg_grpidx : Z }.

(** store bytes at position [pos] of a buffer *)
Definition write_at (buf : list Z) (pos : nat) (b : list Z) : list Z :=
  firstn pos buf ++ b ++ skipn (pos + length b) buf.

Definition seg_eqb (a b : option nat) : bool :=
  match a, b with
  | Some x, Some y => Nat.eqb x y
  | None, None => true
  | _, _ => false
  end.

(** omf.c:1459-1471 *)
Definition pub_rec (segs : nat -> seginfo) (buf : list Z) (size : nat) (cseg : option nat) (c32 : bool) : omf_rec :=
  {| r_cmd := CMD_PUBDEF; r_is32 := if c32 then 1 else 0; r_data := firstn size buf;
     r_d := D_base match cseg with
                   | None => {| grp_idx := 0; seg_idx := 0; frame := 0 |}
                   | Some s => {| grp_idx := sg_grpidx (segs s); seg_idx := sg_segidx (segs s); frame := 0 |}
                   end |}.

(** [buf] is StringBufferEnd, [size] the bytes used by the current record,
    [cseg]/[c32] curr_seg/curr32, [idx] the comdat_idx of the segments,
    [startitem] the last LNAMES index used.  The data written behind the
    buffer start by the COMDAT branch is [len; name; NUL]. *)
Fixpoint pubdef_loop (fuel : nat) (case_sensitive : bool) (segs : nat -> seginfo) (q : list pubsym)
    (idx : nat -> Z) (startitem : Z) (buf : list Z) (size : nat) (cseg : option nat) (c32 : bool)
    : res (list omf_rec * (nat -> Z) * Z) :=
  match fuel with
  | O => UB
  | S fuel =>
    let flush := if Nat.eqb size 0 then [] else [pub_rec segs buf size cseg c32] in
    match q with
    | [] => Ok (flush, idx, startitem)
    | s :: rest =>
        let plain (_ : unit) :=
          let is32 := p_offset s >? 0xffff in
          let recsize := Z.of_nat size + p_name_size s + MANGLE_BYTES + 4 + 4 + 1 + 1 + (if is32 then 4 else 2) in
          if negb (Nat.eqb size 0)
             && (negb (seg_eqb (p_seg s) cseg) || negb (Bool.eqb is32 c32) || (recsize >? MAX_PUB_LENGTH)) then
            bindr (pubdef_loop fuel case_sensitive segs q idx startitem buf 0 None false)
              (fun '(recs, idx, si) => Ok (flush ++ recs, idx, si))
          else
            let entry := [wrap 8 (zlen (p_name s))] ++ p_name s ++
                         le_bytes (if is32 then 4 else 2) (p_offset s) ++ [0] in
            pubdef_loop fuel case_sensitive segs rest idx startitem (write_at buf size entry)
              (size + length entry) (p_seg s) is32 in
        match p_seg s with
        | Some g =>
            if sg_comdat (segs g) then
              if idx g =? 0 then
                let si := startitem + 1 in
                let text := if case_sensitive then p_name s else strupr (p_name s) in
                let ln := [wrap 8 (zlen text)] ++ text in
                let buf := write_at buf 0 (ln ++ [0]) in
                bindr (pubdef_loop fuel case_sensitive segs rest
                         (fun h => if Nat.eqb h g then wrap 16 si else idx h) si buf size cseg c32)
                  (fun '(recs, idx, si) => Ok (mk_rec CMD_LNAMES ln :: recs, idx, si))
              else pubdef_loop fuel case_sensitive segs rest idx startitem buf size cseg c32
            else plain tt
        | None => plain tt
        end
    end
  end.
(** the buffer's previous contents are arbitrary ([buf]) *)
Definition omf_write_pubdef (case_sensitive : bool) (segs : nat -> seginfo) (q : list pubsym)
    (idx : nat -> Z) (startitem : Z) (buf : list Z) :=
  pubdef_loop (2 * length q + 2) case_sensitive segs q idx startitem buf 0 None false.
