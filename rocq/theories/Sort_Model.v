(** Model of SortSegments (segment.c:1094-1135). The list of segments is sorted
    in place; [gt a b]: the condition to swap neighbours a, b. *)
From Verif Require Import Base.

Section S.
Context {A : Type} (gt : A -> A -> bool).
(** the for loop, from curr on: the new list and changed. After a swap prev is
    curr and curr is the element behind it: the moved element isn't compared
    again in this round. *)
Fixpoint round (l : list A) : list A * bool :=
  match l with
  | [] => ([], false)
  | a :: r =>
      match r with
      | [] => ([a], false)
      | b :: r' =>
          if gt a b then let '(t, _) := round r' in (b :: a :: t, true)
          else let '(t, c) := round r in (a :: t, c)
      end
  end.
(** the while loop; None: not finished after n rounds *)
Fixpoint rounds (n : nat) (l : list A) : option (list A) :=
  match n with
  | O => None
  | S n => let '(l', c) := round l in if c then rounds n l' else Some l'
  end.
Definition SortSegments (l : list A) : option (list A) := rounds (S (length l * length l)) l.
End S.

(** strcmp(a, b) > 0, names as lists of bytes *)
Fixpoint strcmp_gt (a b : list Z) : bool :=
  match a, b with
  | [], _ => false
  | _ :: _, [] => true
  | x :: a, y :: b => (x >? y) || ((x =? y) && strcmp_gt a b)
  end.
(** type 2 (segment.c:1115-1119): [lname_idx], and the name as it is compared by _stricmp *)
Definition lname_gt (a b : Z * list Z) : bool := (fst a >? fst b) || ((fst a =? fst b) && strcmp_gt (snd a) (snd b)).
