(** What the queues mean: sequences. *)
From Verif Require Import Base.

(** items queued on queue [i] by a history of (queue, item) *)
Definition queued (i : Z) (ops : list (Z * Z)) : list Z :=
  map snd (filter (fun o => fst o =? i) ops).

(** two-ended symbol lists: a history of insertions and removals; [None] if an
    item is inserted twice or removed from a list it is not in *)
Inductive sym_op := S_add (q item : Z) | S_remove (q item : Z).
Definition sym_step (s : Z -> list Z) (o : sym_op) (s' : Z -> list Z) : Prop :=
  match o with
  | S_add q a => (forall i, ~ In a (s i)) /\
      forall i, s' i = if i =? q then s i ++ [a] else s i
  | S_remove q a => In a (s q) /\
      forall i, s' i = if i =? q then filter (fun x => negb (x =? a)) (s i) else s i
  end.
Inductive sym_steps : (Z -> list Z) -> list sym_op -> (Z -> list Z) -> Prop :=
| sym_nil s : sym_steps s [] s
| sym_cons s o s1 ops s2 : sym_step s o s1 -> sym_steps s1 ops s2 -> sym_steps s (o :: ops) s2.

(** generated lines: assembling a line may queue more lines and may run the
    queue; [Add]ed lines are assembled in order when the queue is run *)
Inductive act := Add (line : Z) | Run.
Section Lines.
  Variable effect : Z -> list act.
  Inductive lines : list Z -> list Z -> list Z -> list Z -> Prop :=
  | lines_nil q : lines [] q [] q
  | lines_cons x l q t1 q1 t2 q2 : acts (effect x) q t1 q1 -> lines l q1 t2 q2 ->
      lines (x :: l) q (x :: t1 ++ t2) q2
  with acts : list act -> list Z -> list Z -> list Z -> Prop :=
  | acts_nil q : acts [] q [] q
  | acts_add x l q t q' : acts l (q ++ [x]) t q' -> acts (Add x :: l) q t q'
  | acts_run l q t1 q1 t2 q2 : lines q [] t1 q1 -> acts l q1 t2 q2 -> acts (Run :: l) q (t1 ++ t2) q2.
End Lines.

(** publics after pass one: weak externals before the first invalid item are dropped *)
Fixpoint drop_weak (bad weak : Z -> bool) (l : list Z) : list Z :=
  match l with
  | [] => []
  | x :: r => if weak x then drop_weak bad weak r
              else if bad x then x :: r else x :: drop_weak bad weak r
  end.
