(** Model of integer literals: tokenize.c get_number, expreval.c myatoi128,
    expans.c myltoa/myqtoa/num2hex64, lqueue.c's number formats.
    Characters are Z (unsigned char codes); strings are lists without the NUL,
    reading behind the end gives NUL. *)
From Verif Require Import Base.

Notation peek := (@hd Z 0).

(** C tolower, "C" locale *)
Definition tolower (c : Z) : Z := if (65 <=? c) && (c <=? 90) then c + 32 else c.

(** tokenize.c:790-801 the digit loop: advances over hex digits, collecting
    digits_seen (uint_32); returns the digits, digits_seen, the rest *)
Fixpoint scan_digits (l : list Z) (seen : Z) : list Z * Z * list Z :=
  match l with
  | [] => ([], seen, [])
  | c :: r =>
      if (48 <=? c) && (c <=? 57) then
        let '(d, s, t) := scan_digits r (Z.lor seen (Z.shiftl 1 (c - 48))) in (c :: d, s, t)
      else
        let last := tolower c in
        if (97 <=? last) && (last <=? 102) then
          let '(d, s, t) := scan_digits r (Z.lor seen (Z.shiftl 1 (last + 10 - 97))) in (c :: d, s, t)
        else ([], seen, l)
  end.

(** outcome of get_number; [T_NUM base digits text rest]: digits is the slice
    dig_start..dig_end, text the token's string (copied input), rest the
    remaining input.  Floats are only classified. *)
Inductive tok := T_NUM (base : Z) (digits text rest : list Z) | T_BAD_NUM | T_FLOAT.

Definition VALID_BINARY := 0x0003.
Definition VALID_OCTAL := 0x00ff.
Definition VALID_DECIMAL := 0x03ff.
Definition OK_NUM (seen v : Z) : bool := Z.land seen (Z.lnot v) =? 0.

(** tokenize.c:866  for(...; tmp < dig_end && *tmp <= max; tmp++) reaches dig_end *)
Definition all_le (max : Z) (l : list Z) : bool := forallb (fun c => c <=? max) l.

(** tokenize.c:790-911 get_number without the 0x prefix *)
Definition get_number_body (radix : Z) (input : list Z) : tok :=
  let '(ds, seen, rest) := scan_digits input 0 in
  let last := tolower (peek rest) in
  let suffixed b := T_NUM b ds (ds ++ [peek rest]) (tl rest) in
  if last =? 46 (* . *) then T_FLOAT
  else if last =? 114 (* r *) then T_FLOAT
  else if last =? 104 (* h *) then suffixed 16
  else if last =? 121 (* y *) then
    if OK_NUM seen VALID_BINARY then suffixed 2 else T_BAD_NUM
  else if last =? 116 (* t *) then
    if OK_NUM seen VALID_DECIMAL then suffixed 10 else T_BAD_NUM
  else if (last =? 113) || (last =? 111) (* q o *) then
    if OK_NUM seen VALID_OCTAL then suffixed 8 else T_BAD_NUM
  else
    let lastd := tolower (List.last ds 0) in
    let bd := ((lastd =? 98) || (lastd =? 100)) && (Z.shiftl 1 radix <=? seen) in
    let max := if lastd =? 98 then 49 else 57 in
    if bd && all_le max (removelast ds) then
      T_NUM (if lastd =? 98 then 2 else 10) (removelast ds) ds rest
    else if seen <? Z.shiftl 1 radix then T_NUM radix ds ds rest
    else T_BAD_NUM.

(** tokenize.c:767-921 get_number (CHEXPREFIX=1, COCTALS=0, MASMNUMBER=1) *)
Definition get_number (radix : Z) (input : list Z) : tok :=
  match input with
  | c0 :: x :: r =>
      if (c0 =? 48) && (tolower x =? 120) then
        let '(ds, seen, rest) := scan_digits r 0 in
        if peek rest =? 46 then T_FLOAT
        else if seen =? 0 then T_BAD_NUM
        else T_NUM 16 ds (c0 :: x :: ds) rest
      else get_number_body radix input
  | _ => get_number_body radix input
  end.

(** expreval.c:827-832 one digit: 8 limbs of 16 bits, [val] is uint_32 *)
Fixpoint mul_add (limbs : list Z) (base val : Z) : list Z :=
  match limbs with
  | [] => []
  | x :: r => let v := wrap 32 (val + x * base) in
              v mod 2 ^ 16 :: mul_add r base (Z.shiftr v 16)
  end.

(** expreval.c:825 digit value of a character (uint_32) *)
Definition digval (c : Z) : Z := wrap 32 (if c <=? 57 then c - 48 else Z.lor c 0x20 - 97 + 10).

(** expreval.c:824-835 do { } while: at least one character is read *)
Fixpoint atoi_loop (src : list Z) (n : nat) (limbs : list Z) (base : Z) : list Z :=
  let limbs := mul_add limbs base (digval (peek src)) in
  match n with
  | O | S O => limbs
  | S n' => atoi_loop (tl src) n' limbs base
  end.

(** expreval.c:807-837 myatoi128; the result's 8 limbs *)
Definition myatoi128 (src : list Z) (base : Z) (size : nat) : list Z :=
  let src := if (Z.lor (peek (tl src)) 0x20 =? 120) && (peek src =? 48) then tl (tl src) else src in
  atoi_loop src size [0; 0; 0; 0; 0; 0; 0; 0] base.

(** dst[] as a 128-bit number *)
Fixpoint limbs_val (l : list Z) : Z :=
  match l with [] => 0 | x :: r => x + 2 ^ 16 * limbs_val r end.

(** the value the expression evaluator gets for a token (expreval.c:899) *)
Definition token_value (base : Z) (digits text : list Z) : Z :=
  limbs_val (myatoi128 text base (length digits)).

(** ** number to text *)

(** expans.c:45 __digits *)
Definition digit_char (d : Z) : Z := if d <? 10 then 48 + d else 55 + d.

(** expans.c:70-71 / 100-101 digits, written from the end of tmpbuf[34];
    [n]: free characters *)
Fixpoint digits_loop (n : nat) (value radix : Z) (acc : list Z) : res (list Z) :=
  if value =? 0 then Ok acc
  else match n with
       | O => UB
       | S k => digits_loop k (value / radix) radix (digit_char (value mod radix) :: acc)
       end.

(** expans.c:52-77 myltoa (bits = 32), expans.c:82-107 myqtoa (bits = 64) *)
Definition mytoa (bits value radix : Z) (sign addzero : bool) : res (list Z) :=
  if negb sign && (value =? 0) then Ok [48]
  else
    let value := if sign then wrap bits (0 - value) else value in
    bindr (digits_loop 33 value radix []) (fun p =>
      Ok ((if sign then [45] else []) ++ (if addzero && (57 <? peek p) then [48] else []) ++ p)).
Definition myltoa := mytoa 32.
Definition myqtoa := mytoa 64.

(** expans.c:111-123 num2hex64: 16 '0' characters overwritten from the end *)
Definition num2hex64 (value : Z) : res (list Z) :=
  bindr (digits_loop 16 value 16 []) (fun p => Ok (repeat 48 (16 - length p) ++ p)).

(** lqueue.c:126-150 AddLineQueueX formats %q (int_64), %d (int_32), with the
    't' suffix for radix <> 10 *)
Definition fmt_q (radix q : Z) : res (list Z) :=
  bindr (myqtoa (wrap 64 q) 10 (q <? 0) false) (fun d => Ok (d ++ if radix =? 10 then [] else [116])).
Definition fmt_d (radix l : Z) : res (list Z) :=
  bindr (myltoa (wrap 32 l) 10 (l <? 0) false) (fun d => Ok (d ++ if radix =? 10 then [] else [116])).
