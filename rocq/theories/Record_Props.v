From Coq Require Import String Ascii.
From Verif Require Import Base Record_Model Record_Spec RecordRun_Spec Record_Proofs RecordInit_Proofs.
Local Open Scope string_scope. Local Open Scope list_scope. Local Open Scope Z_scope.
Definition str (s : string) : list Z := map (fun a => Z.of_nat (nat_of_ascii a)) (list_ascii_of_string s).

(** C06. A definition is accepted exactly when the names are new, the widths
    positive and the total at most 128; the fields then lie in a row, the last
    one at bit 0, in the smallest unit that holds them. *)
Theorem C06_definition : forall names items ws r,
  map i_width items = map Some ws -> Forall (fun w => 0 <= w < 2 ^ 31) ws ->
  RecordDirective names items = Ok r <->
    (Forall (fun w => 0 < w) ws /\ total ws <= 128 /\ NoDup (map i_name items) /\
     (forall n, In n (map i_name items) -> ~ In n names)) /\ laid_out items ws r.
Proof. exact definition. Qed.
Print Assumptions C06_definition.

(** Every bit below the total belongs to a field and no bit to two. *)
Theorem C06_partition : forall names items ws r,
  map i_width items = map Some ws -> Forall (fun w => 0 <= w < 2 ^ 31) ws -> RecordDirective names items = Ok r ->
  (forall b, 0 <= b < total ws -> exists f, In f (r_fields r) /\ f_offset f <= b < f_offset f + f_width f) /\
  (forall a f b g c, r_fields r = a ++ f :: b ++ g :: c -> f_offset g + f_width g <= f_offset f).
Proof.
  intros names items ws r E F H. pose proof (proper_of _ _ _ _ E F H) as P.
  apply (definition names items ws) in H; auto. destruct H as [_ (_ & _ & L & _)].
  split; [|intros; eapply above; eauto]. intros b B. apply covered; auto. unfold widths. rewrite L. auto.
Qed.
Print Assumptions C06_partition.

(** Data of a record of up to 32 bits: accepted exactly when every value's low
    32 bits fit the field, whatever the memory of the last expression holds;
    then exactly the packed value is stored. *)
Theorem C06_data_32 : forall garbage r xs out, proper r -> r_size r <= 4 ->
  (InitRecord garbage r xs = Ok out <->
   (length xs <= length (r_fields r))%nat /\ exists vs, meant_all r xs vs /\
     Forall2 (fun w v => v mod 2 ^ 32 < 2 ^ w) (widths r) vs /\
     out = stored r xs (packed (combine (widths r) (map (fun v => v mod 2 ^ 32) vs)))).
Proof. exact data_small. Qed.
Print Assumptions C06_data_32.

(** Records of 33 to 64 bits: values that fit are stored, if no field is left
    without a value (or the stale upper half is zero). *)
Theorem C06_data_64 : forall garbage r xs vs, proper r -> r_size r = 8 -> (length xs <= length (r_fields r))%nat -> meant_all r xs vs ->
  Forall2 (fun w v => 0 <= v < 2 ^ w) (widths r) vs ->
  all_present r xs = true \/ (garbage = 0 /\ Forall (fun v => v < 2 ^ 32) vs) ->
  InitRecord garbage r xs = Ok (stored r xs (packed (combine (widths r) vs))).
Proof. exact data_large. Qed.
Print Assumptions C06_data_64.

(** Records of 65 to 128 bits: the same, if moreover no field touches bit 63. *)
Theorem C06_data_128 : forall garbage r xs vs, proper r -> r_size r = 16 -> (length xs <= length (r_fields r))%nat -> meant_all r xs vs ->
  Forall2 (fun w v => 0 <= v < 2 ^ w) (widths r) vs ->
  Forall (fun f => f_width f <= 64 /\ (64 <= f_offset f \/ f_offset f + f_width f <= 63)) (r_fields r) ->
  all_present r xs = true \/ (garbage = 0 /\ Forall (fun v => v < 2 ^ 32) vs) ->
  InitRecord garbage r xs = Ok (stored r xs (packed (combine (widths r) vs))).
Proof. exact data_wide. Qed.
Print Assumptions C06_data_128.

(** What is stored gives every field its value back. *)
Theorem C06_read_back : forall r vs a f b, proper r -> Forall2 (fun w v => 0 <= v < 2 ^ w) (widths r) vs -> r_fields r = a ++ f :: b ->
  extract (le_val (le_bytes (Z.to_nat (r_size r)) (packed (combine (widths r) vs)))) (f_offset f) (f_width f) = nth (length a) vs 0.
Proof. exact read_back. Qed.
Print Assumptions C06_read_back.

(** Too many initializers, a non-constant, or low 32 bits that do not fit a
    field narrower than 32 bits are errors, for any record. *)
Theorem C06_rejects : forall garbage r xs, Forall (fun w => 0 < w) (widths r) ->
  ((length xs > length (r_fields r))%nat \/
   (exists f x, In (f, x) (combine (r_fields r) (filled r xs)) /\
     (meant f x = None \/ exists v, meant f x = Some v /\ f_width f < 32 /\ 2 ^ f_width f <= v mod 2 ^ 32))) ->
  InitRecord garbage r xs = Err.
Proof. exact rejects. Qed.
Print Assumptions C06_rejects.

(** MASK and WIDTH of a field and of the record. *)
Theorem C06_mask : forall r, proper r -> r_size r <= 8 ->
  (forall f, In f (r_fields r) -> field_mask f = Ok (2 ^ f_offset f * (2 ^ f_width f - 1)) /\ field_width f = f_width f) /\
  GetRecordMask r = Ok (2 ^ total (widths r) - 1) /\ record_width r = total (widths r).
Proof. intros r P S. split; [intros; eapply mask_ok; eauto|now apply record_mask_ok]. Qed.
Print Assumptions C06_mask.

(** COLOR RECORD blink:1,back:3=1,intense:1=1,fore:3 *)
Definition color_items := [
  {| i_name := str "blink"; i_width := Some 1; i_ivalue := None |};
  {| i_name := str "back"; i_width := Some 3; i_ivalue := Some 1 |};
  {| i_name := str "intense"; i_width := Some 1; i_ivalue := Some 1 |};
  {| i_name := str "fore"; i_width := Some 3; i_ivalue := None |}].
Definition rec_of (r : res record) : record := match r with Ok r => r | _ => {| r_size := 0; r_fields := [] |} end.
Definition color := rec_of (RecordDirective [] color_items).
Example C06_demo : RecordDirective [str "x"] color_items = Ok color /\ r_size color = 1 /\ map f_offset (r_fields color) = [7; 4; 3; 0] /\
  InitRecord 12345 color [Value (Some 1); Empty; Value (Some 0); Value (Some 7)] = Ok (Bytes [0x97]) /\
  InitRecord 0 color [] = Ok (Bytes [0x18]) /\ InitRecord 0 color [Value (Some 2)] = Err /\ GetRecordMask color = Ok 255.
Proof. vm_compute. auto 10. Qed.
Example C06_demo_proper : proper color.
Proof. apply (proper_of [] color_items [1; 3; 1; 3]); [reflexivity| |vm_compute; reflexivity]. change (2 ^ 31) with 2147483648. repeat (apply Forall_cons; [lia|]). apply Forall_nil. Qed.

Definition named (c : string) (w : Z) : item := {| i_name := str c; i_width := Some w; i_ivalue := None |}.
Definition wide := rec_of (RecordDirective [] [named "a" 8; named "b" 32; named "c" 8]).
Example C06_demo_64 : r_size wide = 8 /\ InitRecord 7 wide [Value (Some 1); Value (Some 2); Value (Some 3)] = Ok (Bytes [3; 2; 0; 0; 0; 1; 0; 0]).
Proof. vm_compute. auto. Qed.
Definition oword := rec_of (RecordDirective [] [named "a" 40; named "b" 20; named "c" 44]).
Example C06_demo_128 : r_size oword = 16 /\ map f_offset (r_fields oword) = [64; 44; 0].
Proof. vm_compute. auto. Qed.

(** Not true in general of the code:
    a negative width is accepted; *)
Theorem C06_negative_width_refuted : exists r, RecordDirective [] [named "a" 8; named "b" (-4)] = Ok r /\
  map f_width (r_fields r) = [8; 4294967292].
Proof. eexists. split; [vm_compute; reflexivity|]. vm_compute; reflexivity. Qed.
Print Assumptions C06_negative_width_refuted.
(** a value too large for its field changes the next field when its low 32
    bits fit, or when the field has 32 or more bits; *)
Theorem C06_spill_refuted :
  InitRecord 0 wide [Value (Some 0); Value (Some 0); Value (Some (2 ^ 32))] = Ok (Bytes [0; 0; 0; 0; 1; 0; 0; 0]) /\
  InitRecord 0 wide [Value (Some 0); Value (Some (2 ^ 32)); Value (Some 0)] = Ok (Bytes [0; 0; 0; 0; 0; 1; 0; 0]).
Proof. vm_compute. auto. Qed.
Print Assumptions C06_spill_refuted.
(** a field left empty gets the upper half of the expression before it; *)
Theorem C06_stale_half_refuted : exists r,
  RecordDirective [] [named "a" 40; named "b" 24] = Ok r /\
  InitRecord 0 r [Value (Some (2 ^ 32))] = Ok (Bytes [0; 0; 0; 0; 1; 0; 0; 1]) /\
  extract (le_val [0; 0; 0; 0; 1; 0; 0; 1]) 24 40 = 2 ^ 32 + 2 ^ 8.
Proof. eexists. split; [vm_compute; reflexivity|]. split; [vm_compute; reflexivity|]. vm_compute; reflexivity. Qed.
Print Assumptions C06_stale_half_refuted.
(** a field that reaches bit 63 of a 128-bit record also changes bit 64. *)
Theorem C06_bit_63_refuted : exists r bs,
  RecordDirective [] [named "a" 8; named "b" 8; named "c" 56] = Ok r /\
  InitRecord 0 r [Value (Some 0); Value (Some 0x80); Value (Some 0)] = Ok (Bytes bs) /\
  extract (le_val bs) 64 8 = 1.
Proof. eexists. eexists. split; [vm_compute; reflexivity|]. split; [vm_compute; reflexivity|]. vm_compute; reflexivity. Qed.
Print Assumptions C06_bit_63_refuted.
(** MASK of a field above bit 63 shifts by more than 63. *)
Theorem C06_mask_128_refuted : exists r f, RecordDirective [] [named "a" 8; named "b" 64] = Ok r /\ In f (r_fields r) /\ field_mask f = UB.
Proof. eexists. eexists. split; [vm_compute; reflexivity|]. split; [left; reflexivity|vm_compute; reflexivity]. Qed.
Print Assumptions C06_mask_128_refuted.
