(** What loops mean. *)
From Coq Require Import ZArith List Bool.
From Verif Require Import Base Loop_Model.
Import ListNotations.
Open Scope Z_scope.

Section S.
  Context {A : Type} (body : A -> list Z -> Z -> A * bool).

  (** The body runs once for each argument, numbered from [v], until EXITM. *)
  Inductive runs : list (list Z) -> Z -> A -> A -> Prop :=
  | runs_end : forall v s, runs [] v s s
  | runs_exit : forall a l v s s', body s a v = (s', true) -> runs (a :: l) v s s'
  | runs_step : forall a l v s s' t, body s a v = (s', false) -> runs l (v + 1) s' t -> runs (a :: l) v s t.

  (** While the condition is not zero; [c]: its value, [n]: how often the body
      runs. *)
  Inductive whiles (eval : A -> option Z) : nat -> option Z -> Z -> A -> A -> Prop :=
  | whiles_none : forall v s, whiles eval 0 None v s s
  | whiles_zero : forall v s, whiles eval 0 (Some 0) v s s
  | whiles_exit : forall c v s s', c <> 0 -> body s [] v = (s', true) -> whiles eval 1 (Some c) v s s'
  | whiles_step : forall n c v s s' t, c <> 0 -> body s [] v = (s', false) -> whiles eval n (eval s') (v + 1) s' t -> whiles eval (S n) (Some c) v s t.
End S.

(** A text stands for a list of characters: '!' in front of a character means
    the character itself. *)
Inductive spells : list Z -> list Z -> Prop :=
| spells_nil : spells [] []
| spells_plain : forall c l cs, c <> 33 -> spells l cs -> spells (c :: l) (c :: cs)
| spells_bang : forall c l cs, spells l cs -> spells (33 :: c :: l) (c :: cs).

(** Arguments with commas between them; an argument is a list of texts. *)
Inductive listing : list (list (list Z)) -> list tok -> Prop :=
| listing_one : forall a, listing [a] (map Item a)
| listing_more : forall a args l, listing args l -> listing (a :: args) (map Item a ++ Comma :: l).

(** The value of a parameter: its default if the argument is left out. *)
Definition meant (dflt : list Z) (a : list (list Z)) : list Z := match a with [] => dflt | _ => concat a end.
