(** The documented decoration, as a property of the decorated text. *)
From Verif Require Import Base.

(** [d] is the decimal numeral of [n], without leading zeros *)
Definition digit (c : Z) : Prop := 48 <= c <= 57.
Definition numeral_value (d : list Z) : Z := fold_left (fun v c => v * 10 + (c - 48)) d 0.
Definition numeral (d : list Z) (n : Z) : Prop :=
  Forall digit d /\ d <> [] /\ numeral_value d = n /\ (hd 48 d = 48 -> d = [48]).

Inductive style :=
  | Plain                  (* name *)
  | Upper                  (* NAME *)
  | Lead                   (* _name *)
  | Trail                  (* name_ *)
  | Std (bytes : Z)        (* _name@bytes *)
  | Fast (bytes : Z)       (* @name@bytes *)
  | Vector (bytes : Z).    (* name@@bytes *)
(** [b] is [a] in upper case *)
Definition upper_of (a b : Z) : Prop := (97 <= a <= 122 /\ b = a - 32) \/ (~ 97 <= a <= 122 /\ b = a).
Definition decorated (s : style) (name text : list Z) : Prop :=
  match s with
  | Plain => text = name
  | Upper => Forall2 upper_of name text
  | Lead => text = [95] ++ name
  | Trail => text = name ++ [95]
  | Std n => exists d, numeral d n /\ text = [95] ++ name ++ [64] ++ d
  | Fast n => exists d, numeral d n /\ text = [64] ++ name ++ [64] ++ d
  | Vector n => exists d, numeral d n /\ text = name ++ [64; 64] ++ d
  end.
Definition preserves_case (s : style) : Prop := s <> Upper.
(** the same form of decoration, the sizes may differ *)
Definition same_form (a b : style) : Prop :=
  match a, b with
  | Plain, Plain | Upper, Upper | Lead, Lead | Trail, Trail | Std _, Std _ | Fast _, Fast _ | Vector _, Vector _ => True
  | _, _ => False
  end.
