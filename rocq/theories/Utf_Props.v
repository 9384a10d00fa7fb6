(** C32: conversion of UTF-8 strings to UTF-16. *)
From Verif Require Import Base Utf_Model Utf_Spec Utf_Proofs.

(** C32.  For every text (a list of Unicode scalar values) and every buffer
    size the units written are the UTF-16 encoding of the longest prefix of
    whole characters that fits the buffer, and the number of source bytes
    reported is the length of the UTF-8 encoding of that prefix. *)
Theorem C32_utf8_to_utf16 : forall cs max, Forall scalar cs -> 0 <= max ->
  UTF8toWideChar (flat_map utf8 cs) max = Ok (flat_map utf16 (fit max cs), zlen (flat_map utf8 (fit max cs))).
Proof. exact utf8_to_utf16. Qed.
Print Assumptions C32_utf8_to_utf16.

(** C32.  With a buffer of as many units as the text has bytes (what both
    callers pass) nothing is lost; the size query returns the exact size. *)
Theorem C32_utf8_to_utf16_complete : forall cs, Forall scalar cs -> zlen (flat_map utf8 cs) < 2 ^ 62 ->
  UTF8toWideChar (flat_map utf8 cs) (zlen (flat_map utf8 cs)) = Ok (flat_map utf16 cs, zlen (flat_map utf8 cs)) /\
  UTF8toWideCount (flat_map utf8 cs) = Ok (zlen (flat_map utf16 cs)).
Proof.
  intros cs H B. pose proof (utf16_le_utf8 cs) as L. split.
  - rewrite utf8_to_utf16 by (auto; apply zlen_nonneg). rewrite fit_all by exact L. reflexivity.
  - unfold UTF8toWideCount. change (2 ^ 63 - 1) with 9223372036854775807. change (2 ^ 62) with 4611686018427387904 in B.
    rewrite utf_text by (auto; lia). rewrite fit_all by lia. reflexivity.
Qed.
Print Assumptions C32_utf8_to_utf16_complete.

(** C32.  For arbitrary bytes, well formed or not, the conversion reads
    inside the source, writes at most [max] units and ends. *)
Theorem C32_utf8_memory_safe : forall src max, 0 <= max ->
  exists l d, UTF8toWideChar src max = Ok (l, d) /\ zlen l <= max /\
    Forall (fun u => 0 <= u < 65536) l /\ 0 <= d <= zlen src.
Proof.
  intros src max M. destruct (utf_any (S (length src)) src max 0 0 ltac:(lia) M ltac:(lia)) as (l & d & E & A & B & C).
  exists l, d. split; [exact E|]. split; [exact A|]. split; [exact B|lia].
Qed.
Print Assumptions C32_utf8_memory_safe.

(** Finding: a DW string with a non-ASCII character and more than 256 bytes
    overflows the caller's buffer (data.c:560). *)
Theorem C32_dw_string_refuted : exists cs, Forall scalar cs /\ dw_string (flat_map utf8 cs) = UB.
Proof.
  exists (repeat 233 129). split; [|vm_compute; reflexivity].
  apply Forall_forall. intros x I. apply repeat_spec in I. subst x. left. lia.
Qed.
Print Assumptions C32_dw_string_refuted.

(** DW strings that fit are converted completely *)
Theorem C32_dw_string_short : forall cs, Forall scalar cs -> zlen (flat_map utf8 cs) <= 256 ->
  dw_string (flat_map utf8 cs) = Ok (flat_map utf16 cs).
Proof.
  intros cs H L. unfold dw_string. replace (zlen (flat_map utf8 cs) * 2 >? 512) with false by lia.
  destruct (C32_utf8_to_utf16_complete cs H) as [E _]; [change (2 ^ 62) with 4611686018427387904; lia|].
  rewrite E. reflexivity.
Qed.
Print Assumptions C32_dw_string_short.

(** A, e acute, euro sign, musical clef *)
Example utf_demo :
  flat_map utf8 [65; 233; 0x20AC; 0x1D11E] = [65; 0xC3; 0xA9; 0xE2; 0x82; 0xAC; 0xF0; 0x9D; 0x84; 0x9E] /\
  UTF8toWideChar [65; 0xC3; 0xA9; 0xE2; 0x82; 0xAC; 0xF0; 0x9D; 0x84; 0x9E] 10 = Ok ([65; 233; 0x20AC; 0xD834; 0xDD1E], 10) /\
  UTF8toWideChar [65; 0xC3; 0xA9; 0xE2; 0x82; 0xAC; 0xF0; 0x9D; 0x84; 0x9E] 4 = Ok ([65; 233; 0x20AC], 6).
Proof. vm_compute. repeat split. Qed.
