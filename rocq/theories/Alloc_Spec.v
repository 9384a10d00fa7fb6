(** What a user of the allocator relies on, in terms of address ranges only. *)
From Verif Require Import Base.

(** half-open address range *)
Definition range : Type := Z * Z.
Definition inside (a b : range) : Prop := fst b <= fst a /\ snd a <= snd b.
Definition disjoint (a b : range) : Prop := forall x, ~ (fst a <= x < snd a /\ fst b <= x < snd b).

Fixpoint pairwise {A} (R : A -> A -> Prop) (l : list A) : Prop :=
  match l with
  | [] => True
  | a :: r => Forall (R a) r /\ pairwise R r
  end.
