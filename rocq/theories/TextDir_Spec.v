(** String algebra. *)
From Verif Require Import Base.

(** [r] is the part of [s] from the 1-based position [pos] *)
Definition part (s : list Z) (pos : Z) (r : list Z) : Prop := exists a b, s = a ++ r ++ b /\ zlen a = pos - 1 /\ r ++ b <> [].
(** [q] stands in [s] at the 1-based position [pos] *)
Definition occurs (s q : list Z) (pos : Z) : Prop := exists a b, s = a ++ q ++ b /\ zlen a = pos - 1.
(** the first position from [start] on, or 0 *)
Definition first_from (s q : list Z) (start r : Z) : Prop :=
  (occurs s q r /\ start <= r /\ forall p, start <= p -> occurs s q p -> r <= p)
  \/ (r = 0 /\ forall p, start <= p -> ~ occurs s q p).
