(** Unicode scalar values and their encodings (RFC 3629, RFC 2781). *)
From Verif Require Import Base.

Definition scalar (c : Z) : Prop := 0 <= c < 0xD800 \/ 0xE000 <= c <= 0x10FFFF.

Definition utf8 (c : Z) : list Z :=
  if c <? 0x80 then [c]
  else if c <? 0x800 then [0xC0 + c / 64; 0x80 + c mod 64]
  else if c <? 0x10000 then [0xE0 + c / 4096; 0x80 + c / 64 mod 64; 0x80 + c mod 64]
  else [0xF0 + c / 262144; 0x80 + c / 4096 mod 64; 0x80 + c / 64 mod 64; 0x80 + c mod 64].

Definition utf16 (c : Z) : list Z :=
  if c <? 0x10000 then [c]
  else [0xD800 + (c - 0x10000) / 1024; 0xDC00 + (c - 0x10000) mod 1024].

(** the longest prefix of whole characters that fits [n] units *)
Fixpoint fit (n : Z) (cs : list Z) : list Z :=
  match cs with
  | [] => []
  | c :: r => if zlen (utf16 c) <=? n then c :: fit (n - zlen (utf16 c)) r else []
  end.
