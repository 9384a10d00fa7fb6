(** Shapes of the arguments. *)
From Verif Require Import Base TextDir_Model.

(** text items with commas between them, or a comma behind each *)
Fixpoint items (l : list (list Z)) : list tok :=
  match l with [] => [] | [s] => [Text s] | s :: l => Text s :: Comma :: items l end.
Fixpoint items_comma (l : list (list Z)) : list tok :=
  match l with [] => [] | s :: l => Text s :: Comma :: items_comma l end.
(** values that fit an int *)
Definition int32 (v : Z) : Prop := - 2 ^ 31 <= v < 2 ^ 31.
(** start position of @InStr: 1 if missing or 0 *)
Definition start_of (pos : option num) : option Z :=
  match pos with None => Some 1 | Some None => None | Some (Some v) => Some (if v =? 0 then 1 else v) end.
