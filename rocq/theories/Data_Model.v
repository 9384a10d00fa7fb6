(** Model of the data definition directives for plain integer types
    (data.c:545-1248 data_item, 472-487 little_endian, 1275-1578 data_dir): integer
    constants, strings, ? and nested DUP. Expressions arrive evaluated (see
    Expr_Model). Left out: floats, addresses, structured types, strings that are
    converted from UTF-8 (see Utf_Model), a string as the count of DUP, and the
    data of struct declarations (inside_struct). *)
From Verif Require Import Base Expr_Model.

(** what is left of tokenarray[] after expressions were replaced by their values *)
Inductive dtok := DConst (e : expr) | DStr (s : list Z) | DQuest | DDup | DOpen | DClose | DComma | DOther.
(** calls of OutputDataBytes and FillDataBytes, and of SetCurrOffset( CurrSeg, n, TRUE, TRUE ) *)
Inductive event := Bytes (bs : list Z) | Space (n : Z).
(** the fields of the label: total_length, total_size, first_length, first_size (uint_32), isarray *)
Record label := { l_length : Z; l_size : Z; l_first_length : Z; l_first_size : Z; l_array : bool }.
Record env := {
  nb : Z; (* no_of_bytes *)
  named : bool; (* sym != NULL and Parse_Pass == PASS_1 *)
  literals : bool; (* Options.literal_strings without the MASM compatibility modes *)
  word : bool (* sym->mem_type == MT_WORD *)
}.
Record state := { out : list event (* latest first *); lab : label }.
Definition u32 := wrap 32.
Definition emit (s : state) (e : event) : state := {| out := e :: out s; lab := lab s |}.
Definition set_array (s : state) : state :=
  {| out := out s; lab := {| l_length := l_length (lab s); l_size := l_size (lab s); l_first_length := l_first_length (lab s); l_first_size := l_first_size (lab s); l_array := true |} |}.
Definition set_first (s : state) (len size : Z) : state :=
  {| out := out s; lab := {| l_length := l_length (lab s); l_size := l_size (lab s); l_first_length := u32 len; l_first_size := u32 size; l_array := l_array (lab s) |} |}.
Definition add_total (s : state) (len size : Z) : state :=
  {| out := out s; lab := {| l_length := u32 (l_length (lab s) + len); l_size := u32 (l_size (lab s) + size); l_first_length := l_first_length (lab s); l_first_size := l_first_size (lab s); l_array := l_array (lab s) |} |}.

(** the 16 bytes of the value: chararray *)
Definition chararray (l h : Z) : list Z := le_bytes 8 l ++ le_bytes 8 h.
Definition byte_at (bs : list Z) (i : nat) : Z := nth i bs 0.
(** data.c:890-939, an integer constant *)
Definition store_const (n : Z) (e : expr) : res (list Z) :=
  if n >? 16 then
    let c := chararray (ll e) (hl e) in
    Ok (firstn 16 c ++ repeat (if byte_at c 15 <? 0x80 then 0 else 0xff) (Z.to_nat (n - 16)))
  else
    let h := if n >? 8 then if neg e && (s64 (ll e) <? 0) && (hl e =? 0) then 2 ^ 64 - 1 else hl e else hl e in
    let c := chararray (ll e) h in
    let bs := firstn (Z.to_nat n) c in
    if n <=? 8 then
      let tmp := if byte_at c 7 <? 0x80 then 0 else 0xff in
      let l := le_val (repeat tmp (Z.to_nat n) ++ skipn (Z.to_nat n) (le_bytes 8 (ll e))) in
      if negb (l =? 0) && negb (l =? 2 ^ 64 - 1) then Err else Ok bs
    else if n =? 10 then if (h >? 0xffff) && (h <? 2 ^ 64 - 0xffff) then Err else Ok bs
    else Ok bs.

(** data.c:472-487 *)
Definition little_endian (s : list Z) : list Z := rev s.
Definition interleave (s : list Z) : list Z := flat_map (fun c => [c; 0]) s.
(** data.c:776-888, a quoted string: what is written *)
Definition store_string (v : env) (s : list Z) : res (list event) :=
  let len := zlen s in
  if len =? 0 then Err
  else if negb (nb v =? 1) && (len >? nb v) && (negb (literals v) || (named v && negb (word v))) then Err
  else if negb (nb v =? 1) && literals v && existsb (fun c => c >? 0x7f) s then UB (* UTF-8 conversion, not modelled *)
  else
    let fill := if nb v >? len then [Bytes (repeat 0 (Z.to_nat (nb v - len)))] else [] in
    if negb (literals v) then
      Ok (Bytes (if (len >? 1) && (nb v >? 1) then little_endian s else s) :: fill)
    else if (len >? 1) && (nb v >? 1) && named v && word v then Ok (Bytes (interleave s) :: fill)
    else if (len >? 1) && (nb v >? 1) then Ok fill
    else Ok (Bytes (if nb v >? 1 then little_endian s else s) :: fill).
(** data.c:824-846: how the string counts; returns the number of items, whether
    the label becomes an array and whether [first] is used up *)
Definition string_items (v : env) (s : list Z) : Z * bool :=
  if negb (named v) then (0, false)
  else if ((nb v =? 1) || (nb v =? 2)) && (zlen s >? 1) then (zlen s, true) else (1, false).

(** data.c:647-657: skip the operand of 0 DUP; the result starts with the closing bracket *)
Fixpoint skip (level : nat) (ts : list dtok) : list dtok :=
  match ts with
  | [] => []
  | DOpen :: r => skip (S level) r
  | DClose :: r => match level with S (S l) => skip (S l) r | _ => ts end
  | _ :: r => skip level r
  end.
Definition ends (ts : list dtok) : bool := match ts with [] | DClose :: _ => true | _ => false end.

(** the local variables of data_item *)
Record loc := { total : Z; first : bool; st : state }.
Record outcome := { rest : list dtok; after : loc; stop : bool (* dup has been set to 1 *) }.

(** data.c:1223-1236 item_done: [true]: another item follows *)
Definition item_done (v : env) (l : loc) (ts : list dtok) : loc * list dtok * bool :=
  let s := if named v && first l then set_first (st l) (total l) (total l * nb v) else st l in
  match ts with
  | DComma :: r =>
      if ends r then ({| total := total l; first := first l; st := s |}, r, false)
      else ({| total := total l; first := false; st := set_array s |}, r, true)
  | _ => ({| total := total l; first := first l; st := s |}, ts, false)
  end.

(** one run through the list (from next_item on), the for loop, data_item.
    [n] bounds the nesting and the number of items: data_dir
    gives enough of it (C05_ends). [start]: i == *start_pos; [dup]: the counter of
    the for loop *)
Inductive ans (A : Type) := Good (a : A) | Bad_ | Undef | NoFuel.
Arguments Good {A}. Arguments Bad_ {A}. Arguments Undef {A}. Arguments NoFuel {A}.
Definition abind {A B} (x : ans A) (f : A -> ans B) : ans B := match x with Good a => f a | Bad_ => Bad_ | Undef => Undef | NoFuel => NoFuel end.
Definition of_res {A} (x : res A) : ans A := match x with Ok a => Good a | Err => Bad_ | UB => Undef end.
Definition next (v : env) (again : loc -> list dtok -> ans outcome) (l : loc) (ts : list dtok) (stop : bool) : ans outcome :=
  let '(l, ts, more) := item_done v l ts in
  if more then again l ts else Good {| rest := ts; after := l; stop := stop |}.
Definition run_loop (f : Z -> loc -> ans outcome) : nat -> loc -> list dtok -> ans (loc * list dtok) :=
  fix go (k : nat) (l : loc) (r : list dtok) : ans (loc * list dtok) :=
    match k with
    | O => Good (l, r)
    | S k' => abind (f (Z.of_nat k) l) (fun o => if stop o then Good (after o, rest o) else go k' (after o) (rest o))
    end.
Fixpoint items (n : nat) (v : env) (start : bool) (dup : Z) (l : loc) (ts : list dtok) {struct n} : ans outcome :=
  match n with
  | O => NoFuel
  | S n =>
      let again := items n v false dup in
      match ts with
      | DConst e :: DDup :: r =>
          let count := swrap 32 (ll e) in
          if count <? 0 then Bad_
          else match r with
               | DOpen :: r =>
                   let s := set_array (st l) in
                   abind (if count =? 0 then Good (s, skip 1 r) else data_item n v count (first l) s r) (fun x =>
                   let '(s, r) := x in
                   match r with
                   | DClose :: r =>
                       let s := if named v && first l then set_first s count (count * nb v) else s in
                       next v again {| total := total l; first := first l && negb (named v); st := s |} r false
                   | _ => Bad_
                   end)
               | _ => Bad_
               end
      | DStr _ :: DDup :: _ => Undef (* not modelled *)
      | DQuest :: r =>
          if negb (match r with DComma :: _ => true | _ => false end) && start then
            next v again {| total := u32 (total l + dup); first := first l; st := emit (st l) (Space (u32 (nb v * dup))) |} r true
          else next v again {| total := u32 (total l + 1); first := first l; st := emit (st l) (Space (nb v)) |} r false
      | DConst e :: r =>
          abind (of_res (store_const (nb v) e)) (fun bs =>
          next v again {| total := u32 (total l + 1); first := first l; st := emit (st l) (Bytes bs) |} r false)
      | DStr s :: r =>
          abind (of_res (store_string v s)) (fun evs =>
          let '(k, array) := string_items v s in
          let s1 := if array then set_array (st l) else st l in
          let s2 := if array && first l then set_first s1 1 (nb v) else s1 in
          next v again {| total := u32 (total l + k); first := first l && negb array; st := {| out := rev evs ++ out s2; lab := lab s2 |} |} r false)
      | _ => Bad_
      end
  end
with data_item (n : nat) (v : env) (dup : Z) (fst : bool) (s : state) (ts : list dtok) {struct n} : ans (state * list dtok) :=
  match n with
  | O => NoFuel
  | S n =>
      abind (run_loop (fun d l => items n v true d l ts) (Z.to_nat dup) {| total := 0; first := fst; st := s |} ts) (fun x =>
      let '(l, r) := x in
      Good (if named v then add_total (st l) (total l) (total l * nb v) else st l, r))
  end.
(** data.c:1550-1566, the end of data_dir; the label's fields are 0 before *)
Definition no_label : label := {| l_length := 0; l_size := 0; l_first_length := 0; l_first_size := 0; l_array := false |}.
Definition data_dir (v : env) (ts : list dtok) : ans state :=
  abind (data_item (2 * length ts + 2) v 1 true {| out := []; lab := no_label |} ts) (fun x =>
  let '(s, r) := x in match r with [] => Good s | _ => Bad_ end).
