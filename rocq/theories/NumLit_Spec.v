(** Integer literals as the manual describes them. *)
From Verif Require Import Base.

(** digit value of a character: 0-9, A-F, a-f *)
Definition dig (c : Z) : option Z :=
  if (48 <=? c) && (c <=? 57) then Some (c - 48)
  else if (65 <=? c) && (c <=? 70) then Some (c - 55)
  else if (97 <=? c) && (c <=? 102) then Some (c - 87)
  else None.
Definition hexdig (c : Z) : Prop := dig c <> None.
Definition digit_in (base c : Z) : Prop := exists d, dig c = Some d /\ d < base.

(** positional value, most significant digit first *)
Definition positional (base : Z) (ds : list Z) : Z :=
  fold_left (fun acc c => match dig c with Some d => acc * base + d | None => acc end) ds 0.

(** explicit radix suffixes, either case *)
Definition suffix_base (c : Z) : option Z :=
  if (c =? 104) || (c =? 72) then Some 16                                  (* h *)
  else if (c =? 121) || (c =? 89) then Some 2                              (* y *)
  else if (c =? 116) || (c =? 84) then Some 10                             (* t *)
  else if (c =? 113) || (c =? 81) || (c =? 111) || (c =? 79) then Some 8   (* q o *)
  else None.
(** suffixes that are also hex digits *)
Definition bd_base (c : Z) : option Z :=
  if (c =? 98) || (c =? 66) then Some 2 else if (c =? 100) || (c =? 68) then Some 10 else None.

(** the next character, NUL at the end *)
Notation peek := (@hd Z 0).

Definition stop (rest : list Z) : Prop := ~ hexdig (peek rest).
(** the literal ends here: no digit, suffix, '.' or real designator follows *)
Definition ends (rest : list Z) : Prop :=
  stop rest /\ suffix_base (peek rest) = None /\ ~ In (peek rest) [46; 114; 82].

(** [literal radix input base digits rest] *)
Inductive literal (radix : Z) : list Z -> Z -> list Z -> list Z -> Prop :=
| L_0x x ds rest : x = 120 \/ x = 88 -> ds <> [] -> Forall hexdig ds -> stop rest -> peek rest <> 46 ->
    literal radix (48 :: x :: ds ++ rest) 16 ds rest
| L_suffix c b ds rest : suffix_base c = Some b -> Forall (digit_in b) ds ->
    literal radix (ds ++ c :: rest) b ds rest
| L_radix ds rest : Forall (digit_in radix) ds -> ends rest ->
    ~ (ds = [48] /\ (peek rest = 120 \/ peek rest = 88)) ->   (* that would be 0x *)
    literal radix (ds ++ rest) radix ds rest
| L_bd c b ds rest : bd_base c = Some b -> Forall (digit_in b) ds -> ~ digit_in radix c ->
    ends rest -> literal radix (ds ++ c :: rest) b ds rest.

(** the tokenizer calls get_number for a character '0'..'9' (tokenize.c:1175-1176) *)
Definition starts_dec (l : list Z) : Prop := 48 <= peek l <= 57.

(** what may follow a number in a line *)
Definition delim (rest : list Z) : Prop := ends rest /\ peek rest <> 120 /\ peek rest <> 88.
