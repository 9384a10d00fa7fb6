From Verif Require Import Base Record_Model Record_Spec.

Definition widths (r : record) : list Z := map f_width (r_fields r).
(** what a record definition must give *)
Definition laid_out (items : list item) (ws : list Z) (r : record) : Prop :=
  map f_name (r_fields r) = map i_name items /\
  map f_ivalue (r_fields r) = map i_ivalue items /\
  map f_width (r_fields r) = ws /\
  map f_offset (r_fields r) = positions ws /\
  bytes_for (total ws) (r_size r).
(** a record as a definition with positive widths makes it *)
Definition proper (r : record) : Prop :=
  Forall (fun w => 0 < w) (widths r) /\ total (widths r) <= 128 /\
  map f_offset (r_fields r) = positions (widths r) /\ bytes_for (total (widths r)) (r_size r).

(** the value meant for a field; None = not a constant *)
Definition meant (f : field) (x : init) : option Z :=
  match x with Value v => v | Empty => Some (match f_ivalue f with Some v => v | None => 0 end) end.
Definition present (f : field) (x : init) : bool :=
  match x, f_ivalue f with Empty, None => false | _, _ => true end.
(** missing initializers at the end are empty *)
Fixpoint fill (n : nat) (xs : list init) : list init :=
  match n with O => [] | S n => match xs with [] => Empty :: fill n [] | x :: xs => x :: fill n xs end end.
Definition filled (r : record) (xs : list init) : list init := fill (length (r_fields r)) xs.
Definition meant_all (r : record) (xs : list init) (vs : list Z) : Prop :=
  Forall2 (fun '(f, x) v => meant f x = Some v) (combine (r_fields r) (filled r xs)) vs.
Definition any_present (r : record) (xs : list init) : bool :=
  existsb (fun '(f, x) => present f x) (combine (r_fields r) (filled r xs)).
Definition all_present (r : record) (xs : list init) : bool :=
  forallb (fun '(f, x) => present f x) (combine (r_fields r) (filled r xs)).
(** the output for a packed value *)
Definition stored (r : record) (xs : list init) (x : Z) : output :=
  if any_present r xs then Bytes (le_bytes (Z.to_nat (r_size r)) x) else Space (r_size r).
