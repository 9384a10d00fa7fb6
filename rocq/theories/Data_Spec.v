(** Initializer lists: what they store and what they count. *)
From Verif Require Import Base Expr_Spec Expr_Model Data_Model.

(** * Constants *)
(** a constant of up to 64 bits as an integer *)
Definition int64 (e : expr) : Z := sg (ll e).
(** the 128-bit value; a negated 64-bit constant with its top bit set is extended *)
Definition upper (e : expr) : Z := if neg e && (2 ^ 63 <=? ll e) && (hl e =? 0) then 2 ^ 64 - 1 else hl e.
Definition int128 (e : expr) : Z := ll e + 2 ^ 64 * upper e.
(** the bytes that a constant gives in an item of n bytes; None: an error *)
Definition const_bytes (n : Z) (e : expr) : option (list Z) :=
  if n <=? 8 then
    if (- 2 ^ (8 * n) <=? int64 e) && (int64 e <? 2 ^ (8 * n)) then Some (le_bytes (Z.to_nat n) (ll e)) else None
  else if n <=? 16 then
    if (n =? 10) && (0xffff <? upper e) && (upper e <? 2 ^ 64 - 0xffff) then None else Some (le_bytes (Z.to_nat n) (int128 e))
  else (* sign extension of the 16 bytes *)
    let v := ll e + 2 ^ 64 * hl e in
    Some (le_bytes (Z.to_nat n) (if v <? 2 ^ 127 then v else v - 2 ^ 128)).

(** * Initializers *)
Inductive item := Num (e : expr) | Str (s : list Z) | Quest | Dup (count : expr) (body : list item).
(** a cell: a byte, or left uninitialized *)
Definition cell := option Z.
Definition repeats (e : expr) : Z := ll e mod 2 ^ 32.
Fixpoint all {A} (l : list (option (list A))) : option (list A) :=
  match l with
  | [] => Some []
  | x :: r => match x, all r with Some a, Some b => Some (a ++ b) | _, _ => None end
  end.
Definition string_bytes (n : Z) (s : list Z) : option (list Z) :=
  if zlen s =? 0 then None
  else if n =? 1 then Some s
  else if n <? zlen s then None
  else Some (rev s ++ repeat 0 (Z.to_nat (n - zlen s))).
Definition times {A} (k : Z) (l : list A) : list A := concat (repeat l (Z.to_nat k)).
Fixpoint cells (n : Z) (i : item) : option (list cell) :=
  match i with
  | Num e => option_map (map Some) (const_bytes n e)
  | Str s => option_map (map Some) (string_bytes n s)
  | Quest => Some (repeat None (Z.to_nat n))
  | Dup c b =>
      if 2 ^ 31 <=? repeats c then None
      else if repeats c =? 0 then Some []
      else match b with [] => None | _ => option_map (times (repeats c)) (all (map (cells n) b)) end
  end.
Definition list_cells (n : Z) (l : list item) : option (list cell) := match l with [] => None | _ => all (map (cells n) l) end.
(** number of items; a string in DB or DW counts its characters *)
Definition sum (l : list Z) : Z := fold_right Z.add 0 l.
Fixpoint count (n : Z) (i : item) : Z :=
  match i with
  | Num _ | Quest => 1
  | Str s => if (n =? 1) || (n =? 2) then zlen s else 1
  | Dup c b => repeats c * sum (map (count n) b)
  end.
(** the first dimension (operators LENGTH and SIZE) *)
Definition first_dim (n : Z) (l : list item) : Z * Z :=
  match l with Dup c _ :: _ => (repeats c, repeats c * n) | _ => (1, n) end.
Definition is_array (n : Z) (l : list item) : bool :=
  match l with
  | [Num _] | [Quest] => false
  | [Str s] => ((n =? 1) || (n =? 2)) && (1 <? zlen s)
  | _ => true
  end.

(** * How a list is written *)
Fixpoint toks (i : item) : list dtok :=
  match i with
  | Num e => [DConst e]
  | Str s => [DStr s]
  | Quest => [DQuest]
  | Dup c b =>
      DConst c :: DDup :: DOpen ::
      (match b with [] => [] | i :: r => toks i ++ flat_map (fun i => DComma :: toks i) r end) ++ [DClose]
  end.
Definition list_toks (l : list item) : list dtok := match l with [] => [] | i :: r => toks i ++ flat_map (fun i => DComma :: toks i) r end.

(** * What has been stored *)
Definition event_cells (e : event) : list cell := match e with Bytes bs => map Some bs | Space n => repeat None (Z.to_nat n) end.
Definition image (s : state) : list cell := flat_map event_cells (rev (out s)).

(** * Lists the theorems speak about *)
(** values are 128 bits, as 2 halves *)
Definition word64 (e : expr) : Prop := 0 <= ll e < 2 ^ 64 /\ 0 <= hl e < 2 ^ 64.
Fixpoint wf (i : item) : Prop :=
  match i with Num e => word64 e | Dup c b => word64 c /\ (fix go (b : list item) : Prop := match b with [] => True | i :: r => wf i /\ go r end) b | _ => True end.
Fixpoint wfs (b : list item) : Prop := match b with [] => True | i :: r => wf i /\ wfs r end.
(** only strings of one character *)
Fixpoint single_chars (i : item) : Prop :=
  match i with Str s => zlen s = 1 | Dup _ b => (fix go (b : list item) : Prop := match b with [] => True | i :: r => single_chars i /\ go r end) b | _ => True end.
Fixpoint all_single (b : list item) : Prop := match b with [] => True | i :: r => single_chars i /\ all_single r end.
