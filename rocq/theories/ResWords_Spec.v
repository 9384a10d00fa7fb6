(** What a keyword table should do: the active keywords are a list in the order
    of their activation; a name means the first keyword in the list with this name. *)
From Verif Require Import Base.

Definition fold_case (c : Z) : Z := if (97 <=? c) && (c <=? 122) then c - 32 else c.
Definition same_name (a b : list Z) : bool := if list_eq_dec Z.eq_dec (map fold_case a) (map fold_case b) then true else false.

(** the fixed part: original names; which words belong to one mode only; the
    word whose name depends on the mode, and its other name *)
Record lexicon := { orig : Z -> list Z; size : Z; only64 : list Z; only32 : list Z; sys : Z; sys_name64 : list Z; is_x64 : Z -> bool }.
Record state := {
  act : list Z;                (* active keywords *)
  nms : Z -> list Z;           (* current names *)
  dis : list Z;                (* disabled keywords *)
  ren : list Z;                (* renamed keywords, in the order of the first renaming *)
  mode : bool }.

Inductive op := Find (n : list Z) | Rename (t : Z) (n : list Z) | Disable (t : Z) | Mode (b : bool) | EndModule.

Definition without (p : Z) (l : list Z) : list Z := filter (fun x => negb (x =? p)) l.
Definition inb (x : Z) (l : list Z) : bool := existsb (Z.eqb x) l.
Definition updn (f : Z -> list Z) (t : Z) (n : list Z) : Z -> list Z := fun x => if x =? t then n else f x.
(** activate, deactivate *)
Definition on (l : list Z) (a : list Z) : list Z := a ++ l.
Definition off (l : list Z) (a : list Z) : list Z := filter (fun x => negb (inb x l)) a.

Definition lookup (t : state) (n : list Z) : Z :=
  match find (fun k => same_name n (nms t k)) (act t) with Some k => k | None => 0 end.

Definition step (x : lexicon) (o : op) (t : state) : state * Z :=
  match o with
  | Find n => (t, lookup t n)
  | Rename k n =>
      if same_name n (nms t k) then (t, 0)
      else ({| act := without k (act t) ++ [k]; nms := updn (nms t) k n; dis := dis t;
               ren := if inb k (ren t) then if list_eq_dec Z.eq_dec n (orig x k) then without k (ren t) else ren t else ren t ++ [k];
               mode := mode t |}, 0)
  | Disable k =>
      if inb k (dis t) then (t, 0)
      else ({| act := without k (act t); nms := nms t; dis := dis t ++ [k]; ren := ren t; mode := mode t |}, 0)
  | Mode b =>
      if Bool.eqb b (mode t) then (t, 0)
      else if b then
        ({| act := off (only32 x) (on (filter (fun k => negb (inb k (dis t))) (only64 x)) (without (sys x) (act t) ++ [sys x]));
            nms := updn (nms t) (sys x) (sys_name64 x); dis := dis t; ren := ren t; mode := b |}, 0)
      else
        ({| act := without (sys x) (on (filter (fun k => negb (inb k (dis t))) (only32 x)) (off (only64 x) (act t))) ++ [sys x];
            nms := updn (nms t) (sys x) (orig x (sys x)); dis := dis t; ren := ren t; mode := b |}, 0)
  | EndModule =>
      ({| act := fold_left (fun a k => without k a ++ [k]) (ren t) (act t) ++ filter (fun k => negb (is_x64 x k)) (dis t);
          nms := fun k => if inb k (ren t) then orig x k else nms t k; dis := []; ren := []; mode := mode t |}, 0)
  end.

Definition good_name (n : list Z) : Prop := Forall is_byte n /\ zlen n <= 255.
(** the keyword given to OPTION RENAMEKEYWORD/NOKEYWORD was found by its
    name, so it is active; the word [sys] keeps its name; only the word renamed
    first can be renamed once more; at the end of the module the mode is 32-bit and
    the renamed keywords are active *)
Definition allowed (x : lexicon) (o : op) (t : state) : Prop :=
  match o with
  | Find n => good_name n
  | Rename k n => In k (act t) /\ k <> sys x /\ good_name n /\ (In k (ren t) -> hd_error (ren t) = Some k)
  | Disable k => In k (act t) /\ k <> sys x
  | Mode _ => True
  | EndModule => mode t = false /\ forall k, In k (ren t) -> In k (act t)
  end.

Definition tokens (n : nat) : list Z := map Z.of_nat (seq 1 n).
Definition init (x : lexicon) : state :=
  {| act := filter (fun k => negb (is_x64 x k)) (tokens (Z.to_nat (size x))); nms := orig x; dis := []; ren := []; mode := false |}.
