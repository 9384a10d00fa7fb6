(** Model of string.c UTF8toWideChar and of its use for DW strings. *)
From Verif Require Import Base.

(** string.c:101 lpOffsetsFromUTF8[] (entries 4 and 5 are never used) *)
Definition offset_utf8 (nTrailing : Z) : Z :=
  if nTrailing =? 0 then 0
  else if nTrailing =? 1 then 0x3080
  else if nTrailing =? 2 then 0xE2080
  else 0x3C82080.

(** string.c:157-178 the fall-through switch: [n] is nTrailing; nChar is an
    unsigned long (64 bits).  Reading behind the source is UB. *)
Fixpoint get_char (n : nat) (nChar : Z) (src : list Z) : res (Z * list Z) :=
  match src with
  | [] => UB
  | b :: rest =>
      let nChar := wrap 64 (nChar + b) in
      match n with
      | O => Ok (nChar, rest)
      | S n => get_char n (wrap 64 (Z.shiftl nChar 6)) rest
      end
  end.

(** string.c:122-204 the loop.  [room] is pDstEnd - pDst; [done] counts
    pSrcDone - pSource, [pos] pSrc - pSource.  Returns the units written and
    nSourceDone. *)
Fixpoint utf_loop (fuel : nat) (src : list Z) (room pos done : Z) : res (list Z * Z) :=
  match fuel with
  | O => Err
  | S fuel =>
      match src with
      | [] => Ok ([], done)
      | b :: rest =>
          if room <=? 0 then Ok ([], done)
          else
            let convert (nTrailing : nat) :=
              bindr (get_char nTrailing 0 src) (fun '(nChar, rest) =>
              let pos := pos + 1 + Z.of_nat nTrailing in
              let nChar := wrap 64 (nChar - offset_utf8 (Z.of_nat nTrailing)) in
              if nChar <=? 0xFFFF then
                bindr (utf_loop fuel rest (room - 1) pos pos)
                  (fun '(l, d) => Ok (wrap 16 nChar :: l, d))
              else if room <=? 1 then Ok ([], done)
              else
                let nChar := wrap 64 (nChar - 0x10000) in
                bindr (utf_loop fuel rest (room - 2) pos pos)
                  (fun '(l, d) => Ok (wrap 16 (Z.shiftr nChar 10 + 0xD800) ::
                                      wrap 16 (Z.land nChar 0x3ff + 0xDC00) :: l, d))) in
            if b <? 0x80 then convert O
            else if b <? 0xC0 then utf_loop fuel rest room (pos + 1) (pos + 1)
            else if b <? 0xE0 then if zlen src <=? 1 then Ok ([], done) else convert 1%nat
            else if b <? 0xF0 then if zlen src <=? 2 then Ok ([], done) else convert 2%nat
            else if b <? 0xF8 then if zlen src <=? 3 then Ok ([], done) else convert 3%nat
            else utf_loop fuel rest room (pos + 1) (pos + 1)
      end
  end.

(** string.c:99-208; the result is the list of units written to szTarget *)
Definition UTF8toWideChar (src : list Z) (nTargetMax : Z) : res (list Z * Z) :=
  utf_loop (S (length src)) src nTargetMax 0 0.

(** string.c:111-115: szTarget = NULL, nTargetMax = 0: only the count is
    returned; pDstEnd = MAXUINT_PTR is behind every count *)
Definition UTF8toWideCount (src : list Z) : res Z :=
  bindr (utf_loop (S (length src)) src (2 ^ 63 - 1) 0 0) (fun '(l, _) => Ok (zlen l)).

(** data.c:560,812-813: [uint_16 buff[256]]; memset(&buff,0,string_len*2), then
    the conversion with nTargetMax = string_len *)
Definition dw_string (str : list Z) : res (list Z) :=
  if zlen str * 2 >? 512 then UB
  else bindr (UTF8toWideChar str (zlen str)) (fun '(l, _) => Ok l).
