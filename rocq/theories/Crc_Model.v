(** Model of coff.c:293-328: the checksum of COMDAT sections. *)
From Verif Require Import Base.

(** coff.c:303 loop body of InitCRC32; crc is uint_32 *)
Definition crc_shift (crc : Z) : Z :=
  Z.lxor (Z.shiftr crc 1) (wrap 32 (0xEDB88320 * Z.land crc 1)).

(** coff.c:302-305 the inner loop for one table entry *)
Fixpoint crc_shifts (n : nat) (crc : Z) : Z :=
  match n with
  | O => crc
  | S k => crc_shifts k (crc_shift crc)
  end.

(** coff.c:296-307 InitCRC32: CRC32Table[0..255] *)
Definition CRC32Table : list Z := map (fun i => crc_shifts 8 (Z.of_nat i)) (seq 0 256).

(** coff.c:319-326 the loop of CRC32Comdat.  [dwBufLen] counts down; reading
    behind the buffer is undefined behaviour. *)
Fixpoint crc_loop (lpBuffer : list Z) (dwBufLen : nat) (dwCRC : Z) {struct dwBufLen} : res Z :=
  match dwBufLen with
  | O => Ok dwCRC
  | S n =>
    match lpBuffer with
    | [] => UB
    | byt :: rest =>
        let byt := Z.lxor byt (wrap 8 dwCRC) in
        let dwCRC := Z.shiftr dwCRC 8 in
        match nth_error CRC32Table (Z.to_nat byt) with
        | Some e => crc_loop rest n (Z.lxor dwCRC e)
        | None => UB
        end
    end
  end.

(** coff.c:309-328 CRC32Comdat; [None] is the NULL buffer of a section without data.
    The table is initialised on the first call (the static flag is not modelled). *)
Definition CRC32Comdat (lpBuffer : option (list Z)) (dwBufLen : Z) (dwCRC : Z) : res Z :=
  match lpBuffer with
  | Some b => crc_loop b (Z.to_nat dwBufLen) dwCRC
  | None => Ok dwCRC
  end.
