(** A record is the concatenation of its bit fields, the first one at the top. *)
From Verif Require Import Base.

Fixpoint total (ws : list Z) : Z := match ws with [] => 0 | w :: r => w + total r end.
(** the number whose binary digits are the fields' digits in a row *)
Fixpoint packed (l : list (Z * Z)) : Z :=
  match l with [] => 0 | (w, v) :: r => v * 2 ^ total (map fst r) + packed r end.
(** the lowest bit of each field *)
Fixpoint positions (ws : list Z) : list Z := match ws with [] => [] | w :: r => total r :: positions r end.
(** the field of [w] bits at bit [p] of [x] *)
Definition extract (x p w : Z) : Z := (x / 2 ^ p) mod 2 ^ w.
(** smallest power of two bytes that holds [n] bits *)
Definition bytes_for (n s : Z) : Prop :=
  In s [1; 2; 4; 8; 16] /\ n <= 8 * s /\ (forall s', In s' [1; 2; 4; 8; 16] -> n <= 8 * s' -> s <= s').
