(** Stable sorting. *)
From Coq Require Import Permutation Sorted.
From Verif Require Import Base.

(** [gt] orders some key: a weak order *)
Definition weak_order {A} (gt : A -> A -> bool) : Prop :=
  (forall a b, gt a b = true -> gt b a = false) /\ (forall a b c, gt a b = false -> gt b c = false -> gt a c = false).
Definition same_key {A} (gt : A -> A -> bool) (a b : A) : bool := negb (gt a b) && negb (gt b a).
(** a permutation, ascending, elements with the same key in their old order *)
Definition stably_sorted {A} (gt : A -> A -> bool) (l l' : list A) : Prop :=
  Permutation l l' /\ StronglySorted (fun a b => gt a b = false) l' /\ forall x, filter (same_key gt x) l' = filter (same_key gt x) l.
