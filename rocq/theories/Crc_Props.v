(** C18: the COMDAT checksum. *)
From Verif Require Import Base Crc_Model Crc_Spec Crc_Proofs.

(** C18.  The checksum of any buffer is the bit-serial CRC-32 of its first
    [dwBufLen] bytes, continued from the given value. *)
Theorem C18_crc32 : forall bytes behind init,
  Forall is_byte bytes -> 0 <= init < 2 ^ 32 ->
  CRC32Comdat (Some (bytes ++ behind)) (zlen bytes) init = Ok (crc32 init bytes) /\
  0 <= crc32 init bytes < 2 ^ 32.
Proof. exact crc_correct. Qed.
Print Assumptions C18_crc32.

(** C18.  Checksumming two pieces one after the other is the checksum of the whole. *)
Theorem C18_crc32_continues : forall a b init,
  Forall is_byte a -> Forall is_byte b -> 0 <= init < 2 ^ 32 ->
  bindr (CRC32Comdat (Some a) (zlen a) init) (fun c => CRC32Comdat (Some b) (zlen b) c)
  = CRC32Comdat (Some (a ++ b)) (zlen (a ++ b)) init.
Proof.
  intros a b init A B I.
  pose proof (crc_correct a [] init A I) as [E R]. rewrite app_nil_r in E. rewrite E. cbn [bindr].
  pose proof (crc_correct b [] _ B R) as [E2 _]. rewrite app_nil_r in E2. rewrite E2.
  pose proof (crc_correct (a ++ b) [] init) as E3. rewrite app_nil_r in E3.
  destruct E3 as [E3 _]; [apply Forall_app; auto|assumption|].
  rewrite E3, crc32_app. reflexivity.
Qed.
Print Assumptions C18_crc32_continues.

(** C18.  Two sections of the same size that differ inside one window of at
    most four bytes get different checksums, wherever the window is. *)
Theorem C18_crc32_detects_change : forall pre x y post init,
  Forall is_byte pre -> Forall is_byte x -> Forall is_byte y -> Forall is_byte post ->
  length x = length y -> (length x <= 4)%nat -> 0 <= init < 2 ^ 32 ->
  CRC32Comdat (Some (pre ++ x ++ post)) (zlen (pre ++ x ++ post)) init =
  CRC32Comdat (Some (pre ++ y ++ post)) (zlen (pre ++ y ++ post)) init -> x = y.
Proof.
  intros pre x y post init P X Y Q L B I E.
  pose proof (crc_correct (pre ++ x ++ post) [] init) as E1. rewrite app_nil_r in E1.
  pose proof (crc_correct (pre ++ y ++ post) [] init) as E2. rewrite app_nil_r in E2.
  destruct E1 as [E1 _]; [rewrite !Forall_app; auto|assumption|].
  destruct E2 as [E2 _]; [rewrite !Forall_app; auto|assumption|].
  rewrite E1, E2 in E. injection E as E. eapply crc_detects; eassumption.
Qed.
Print Assumptions C18_crc32_detects_change.

(** the standard check value of CRC-32 ("123456789" gives CBF43926 when
    started from and finally complemented with FFFFFFFF) *)
Example crc_check :
  bindr (CRC32Comdat (Some [49;50;51;52;53;54;55;56;57]) 9 0xFFFFFFFF)
        (fun c => Ok (Z.lxor c 0xFFFFFFFF)) = Ok 0xCBF43926.
Proof. vm_compute. reflexivity. Qed.
Example crc_window :
  CRC32Comdat (Some [1;2;3;4;5;6]) 6 0 <> CRC32Comdat (Some [1;9;3;4;7;6]) 6 0.
Proof. vm_compute. discriminate. Qed.
(** a section without data keeps the value *)
Example crc_null : CRC32Comdat None 17 5 = Ok 5.
Proof. reflexivity. Qed.
