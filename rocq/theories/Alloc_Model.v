(** Model of memalloc.c (FASTMEM branch): LclAlloc, MemInit, MemFini on a
    64-bit host (sizeof(void * ) = 8). *)
From Verif Require Import Base.

(** memalloc.c:73 *)
Definition BLKSIZE := 0x80000.
(** sizeof(struct linked_list), memalloc.c:86-88 *)
Definition HDR := 8.

(** memalloc.c:89-91.  [pBase] is the linked list of block addresses (the
    [next] field lives in the first 8 bytes of each block); [pCurr] is a
    pointer, [currfree] a uint_32. *)
Record heap := { pBase : list Z; pCurr : Z; currfree : Z }.

(** program start (static zero) followed by MemInit, memalloc.c:167-176 *)
Definition MemInit : heap := {| pBase := []; pCurr := 0; currfree := 0 |}.

(** memalloc.c:205 the rounding, in size_t (64-bit) arithmetic *)
Definition round_size (size : Z) : Z :=
  Z.land (wrap 64 (size + (8 - 1))) (wrap 64 (Z.lnot (8 - 1))).

(** memalloc.c:208 the new value of currfree (stored to a uint_32) *)
Definition block_room (size : Z) : Z :=
  wrap 32 (if size <=? BLKSIZE - HDR then BLKSIZE - HDR else size).

(** size passed to BLKALLOC (memalloc.c:209), if a new block is needed *)
Definition block_request (h : heap) (req : Z) : option Z :=
  let size := round_size req in
  if currfree h <? size then Some (block_room size + HDR) else None.

(** memalloc.c:199-241 LclAlloc.  [sys] is the address BLKALLOC returns
    ([None]: NULL, then Fatal = [Err]); it is used only if a block is requested. *)
Definition LclAlloc (h : heap) (req : Z) (sys : option Z) : res (heap * Z) :=
  let size := round_size req in
  bindr (if currfree h <? size then
           match sys with
           | Some a => Ok {| pBase := a :: pBase h; pCurr := a + HDR; currfree := block_room size |}
           | None => Err
           end
         else Ok h)
    (fun h => Ok ({| pBase := pBase h; pCurr := pCurr h + size;
                     currfree := wrap 32 (currfree h - size) |}, pCurr h)).

(** memalloc.c:178-196 MemFini: the blocks handed to BLKFREE, in order *)
Definition MemFini (h : heap) : list Z := pBase h.
