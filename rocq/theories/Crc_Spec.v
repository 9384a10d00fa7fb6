(** CRC-32 as a bit-serial shift register (reflected form of the IEEE 802.3
    polynomial x^32+x^26+x^23+x^22+x^16+x^12+x^11+x^10+x^8+x^7+x^5+x^4+x^2+x+1):
    bits enter least significant first. *)
From Verif Require Import Base.

(** x^k is bit 31-k of the reflected polynomial; x^32 is implicit *)
Definition poly_exponents : list Z := [26; 23; 22; 16; 12; 11; 10; 8; 7; 5; 4; 2; 1; 0].
Definition poly : Z := fold_right (fun k a => 2 ^ (31 - k) + a) 0 poly_exponents.

(** clock one message bit into the register *)
Definition clock (crc : Z) (b : bool) : Z :=
  let feedback := xorb (Z.odd crc) b in
  if feedback then Z.lxor (crc / 2) poly else crc / 2.

Fixpoint byte_bits (n : nat) (v : Z) : list bool :=
  match n with
  | O => []
  | S k => Z.odd v :: byte_bits k (v / 2)
  end.
Definition message_bits (l : list Z) : list bool := flat_map (byte_bits 8) l.

Definition crc32 (init : Z) (l : list Z) : Z := fold_left clock (message_bits l) init.
