(** Placement of structure members. *)
From Verif Require Import Base.

(** [off] is the next suitable offset from [pos] on for the alignment [a] *)
Definition place (a pos off : Z) : Prop := pos <= off < pos + a /\ (forall k, 0 <= k -> a = 2 ^ k -> (a | off)).
(** alignment of a member whose largest scalar has [m] bytes *)
Definition eff (al m : Z) : Z := Z.min al (Z.max m 1).
Definition disjoint (o1 s1 o2 s2 : Z) : Prop := o1 + s1 <= o2 \/ o2 + s2 <= o1.
