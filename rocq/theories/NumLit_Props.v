(** C02 numeric literals, C35 number to text and back. *)
From Verif Require Import Base NumLit_Model NumLit_Spec NumLit_Proofs.

(** Exactly the documented literals are accepted, with the documented base and digits. *)
Theorem C02_literal_recognised : forall radix input b ds rest,
  starts_dec input -> 2 <= radix <= 16 ->
  (exists text, get_number radix input = T_NUM b ds text rest) <-> literal radix input b ds rest.
Proof. exact get_number_iff. Qed.
Print Assumptions C02_literal_recognised.

(** An accepted literal evaluates to its positional value (mod 2^128). *)
Theorem C02_literal_value : forall radix input b ds text rest,
  starts_dec input -> 2 <= radix <= 16 -> Forall is_byte input ->
  get_number radix input = T_NUM b ds text rest ->
  input = text ++ rest /\ token_value b ds text = positional b ds mod 2 ^ 128.
Proof.
  intros. split; [eapply literal_text; eauto|eapply get_number_value; eauto].
Qed.
Print Assumptions C02_literal_value.

(** "0FFh," in radix 10, "101b" and "1d" *)
Example C02_demo_h : starts_dec [48; 70; 102; 104; 44] /\
  get_number 10 [48; 70; 102; 104; 44] = T_NUM 16 [48; 70; 102] [48; 70; 102; 104] [44] /\
  token_value 16 [48; 70; 102] [48; 70; 102; 104] = 255.
Proof. repeat split; vm_compute; congruence. Qed.
Example C02_demo_b : get_number 10 [49; 48; 49; 98] = T_NUM 2 [49; 48; 49] [49; 48; 49; 98] [] /\
  get_number 16 [49; 48; 49; 98] = T_NUM 16 [49; 48; 49; 98] [49; 48; 49; 98] [] /\
  get_number 10 [49; 50; 98] = T_BAD_NUM.
Proof. repeat split; vm_compute; reflexivity. Qed.
Example C02_demo_0x : get_number 10 [48; 88; 49; 48; 32] = T_NUM 16 [49; 48] [48; 88; 49; 48] [32] /\
  token_value 16 [49; 48] [48; 88; 49; 48] = 16 /\ get_number 10 [48; 120; 103] = T_BAD_NUM.
Proof. repeat split; vm_compute; reflexivity. Qed.

(** [myltoa] with the zero prefix: the text is read back as the number, in
    every radix and whatever follows. *)
Theorem C35_ltoa_reads_back : forall radix v rest,
  2 <= radix <= 16 -> 0 <= v < 2 ^ 32 -> delim rest -> Forall is_byte rest ->
  exists t, myltoa v radix false true = Ok t /\
  exists b ds text, get_number radix (t ++ rest) = T_NUM b ds text rest /\ token_value b ds text = v.
Proof. exact toa_reads. Qed.
Print Assumptions C35_ltoa_reads_back.

(** AddLineQueueX %q and %d: minus sign exactly for negative numbers, then a
    literal which reads back as the magnitude in every current radix. *)
Theorem C35_line_queue_q : forall radix v rest,
  2 <= radix <= 16 -> - 2 ^ 63 <= v < 2 ^ 63 -> (if radix =? 10 then delim rest else True) -> Forall is_byte rest ->
  exists t, fmt_q radix v = Ok ((if v <? 0 then [45] else []) ++ t) /\
  exists b ds text, get_number radix (t ++ rest) = T_NUM b ds text rest /\ token_value b ds text = Z.abs v.
Proof. intros. apply (fmt_reads 64); auto. Qed.
Print Assumptions C35_line_queue_q.
Theorem C35_line_queue_d : forall radix v rest,
  2 <= radix <= 16 -> - 2 ^ 31 <= v < 2 ^ 31 -> (if radix =? 10 then delim rest else True) -> Forall is_byte rest ->
  exists t, fmt_d radix v = Ok ((if v <? 0 then [45] else []) ++ t) /\
  exists b ds text, get_number radix (t ++ rest) = T_NUM b ds text rest /\ token_value b ds text = Z.abs v.
Proof. intros. apply (fmt_reads 32); auto. Qed.
Print Assumptions C35_line_queue_d.

(** num2hex64: always 16 hex digits with the number's value *)
Theorem C35_num2hex64 : forall v, 0 <= v < 2 ^ 64 ->
  exists t, num2hex64 v = Ok t /\ length t = 16%nat /\ Forall (digit_in 16) t /\ positional 16 t = v.
Proof. exact hex64. Qed.
Print Assumptions C35_num2hex64.

(** The same is false of the % operator and of the CATSTR/SIZESTR/INSTR users:
    1. a negative number whose low 32 bits are zero prints as "-"
       (expans.c:406 passes opndx.hvalue < 0 as sign). *)
Theorem C35_sign_of_zero_refuted : exists radix, 2 <= radix <= 16 /\
  myltoa (wrap 32 (-4294967296)) radix true false = Ok [45].
Proof. exists 10. split; [lia|]. vm_compute; reflexivity. Qed.
(** 2. without addzero, radix 16, 255 prints as "FF": not a number token *)
Theorem C35_no_zero_prefix_refuted : exists v t, 0 <= v < 2 ^ 32 /\
  myltoa v 16 false false = Ok t /\ ~ starts_dec t.
Proof. exists 255, [70; 70]. split; [lia|]. split; [vm_compute; reflexivity|]. unfold starts_dec. cbn. lia. Qed.

Example C35_demo : myltoa 3735928559 16 false true = Ok [48; 68; 69; 65; 68; 66; 69; 69; 70] /\
  fmt_q 16 (-18) = Ok [45; 49; 56; 116] /\
  fmt_d 10 (-2147483648) = Ok [45; 50; 49; 52; 55; 52; 56; 51; 54; 52; 56] /\ delim [44].
Proof. repeat split; try (vm_compute; reflexivity); unfold stop, hexdig, dig; cbn; try lia; congruence. Qed.
