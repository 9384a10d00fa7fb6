(** Shared vocabulary: bytes, C-style wrap-around, little-endian encoding.

    [Base] holds only (a) the modelling of C's fixed-width arithmetic and
    (b) the reader-side functions ([le_val], ...) used by specifications.
    C integers are modelled as [Z] with explicit reduction. *)
From Coq Require Export ZArith List Bool Lia.
From Coq Require Export ZifyBool ZifyNat ZifyN.
Export ListNotations.
#[global] Open Scope Z_scope.

Ltac Zify.zify_post_hook ::= Z.div_mod_to_equations.

#[global] Arguments Z.add !_ !_.
#[global] Arguments Z.sub !_ !_.
#[global] Arguments Z.mul !_ !_.
#[global] Arguments Z.opp !_.
#[global] Arguments Z.div !_ !_.
#[global] Arguments Z.modulo !_ !_.
#[global] Arguments Z.pow !_ !_.
#[global] Arguments Z.shiftl !_ !_.
#[global] Arguments Z.shiftr !_ !_.
#[global] Arguments Z.land !_ !_.
#[global] Arguments Z.lor !_ !_.
#[global] Arguments Z.of_nat : simpl never.
#[global] Arguments Z.to_nat !_.

(** unsigned wrap: value kept in an unsigned C integer of [n] bits *)
Definition wrap (n v : Z) : Z := v mod 2 ^ n.
(** signed wrap: value kept in a two's complement C integer of [n] bits *)
Definition swrap (n v : Z) : Z := (v + 2 ^ (n - 1)) mod 2 ^ n - 2 ^ (n - 1).

Definition is_byte (b : Z) : Prop := 0 <= b < 256.

(** Storing an integer of [n] bytes through a pointer on a little-endian
    machine: byte i is bits 8i..8i+7. *)
Fixpoint le_bytes (n : nat) (v : Z) : list Z :=
  match n with
  | O => []
  | S k => v mod 256 :: le_bytes k (v / 256)
  end.

(** Reader side: the number a little-endian byte string denotes. *)
Fixpoint le_val (l : list Z) : Z :=
  match l with
  | [] => 0
  | b :: r => b + 256 * le_val r
  end.

Definition zlen {A} (l : list A) : Z := Z.of_nat (length l).

Lemma zlen_nonneg {A} (l : list A) : 0 <= zlen l.
Proof. unfold zlen; lia. Qed.
Lemma zlen_app {A} (l r : list A) : zlen (l ++ r) = zlen l + zlen r.
Proof. unfold zlen; rewrite app_length; lia. Qed.
Lemma zlen_cons {A} (x : A) r : zlen (x :: r) = 1 + zlen r.
Proof. unfold zlen; cbn [length]; lia. Qed.
Lemma zlen_nil {A} : zlen (@nil A) = 0.
Proof. reflexivity. Qed.

Lemma le_bytes_length n v : length (le_bytes n v) = n.
Proof. revert v; induction n; intros; cbn; auto. Qed.

Lemma le_bytes_byte n v : Forall is_byte (le_bytes n v).
Proof.
  revert v; induction n; intros; cbn [le_bytes]; constructor; auto.
  unfold is_byte; lia.
Qed.

Lemma pow2_pos n : 0 <= n -> 0 < 2 ^ n.
Proof. intros; apply Z.pow_pos_nonneg; lia. Qed.

Lemma le_val_le_bytes n v : le_val (le_bytes n v) = v mod 2 ^ (8 * Z.of_nat n).
Proof.
  revert v; induction n; intros; cbn [le_bytes le_val].
  - cbn. rewrite Z.mod_1_r. reflexivity.
  - rewrite IHn.
    replace (8 * Z.of_nat (S n)) with (8 + 8 * Z.of_nat n) by lia.
    rewrite Z.pow_add_r by lia. change (2 ^ 8) with 256.
    pose proof (pow2_pos (8 * Z.of_nat n) ltac:(lia)).
    rewrite Z.rem_mul_r by lia. lia.
Qed.

Lemma le_val_app l r : le_val (l ++ r) = le_val l + 2 ^ (8 * zlen l) * le_val r.
Proof.
  induction l; cbn [le_val app].
  - change (2 ^ (8 * zlen (@nil Z))) with 1. lia.
  - rewrite IHl, zlen_cons.
    replace (8 * (1 + zlen l)) with (8 + 8 * zlen l) by lia.
    rewrite Z.pow_add_r by (pose proof (zlen_nonneg l); lia). change (2 ^ 8) with 256.
    ring.
Qed.

Lemma le_val_range l : Forall is_byte l -> 0 <= le_val l < 2 ^ (8 * zlen l).
Proof.
  induction 1; cbn [le_val].
  - change (2 ^ (8 * zlen (@nil Z))) with 1. lia.
  - rewrite zlen_cons.
    replace (8 * (1 + zlen l)) with (8 + 8 * zlen l) by lia.
    rewrite Z.pow_add_r by (pose proof (zlen_nonneg l); lia). change (2 ^ 8) with 256.
    unfold is_byte in *. lia.
Qed.

Lemma wrap_range n v : 0 <= n -> 0 <= wrap n v < 2 ^ n.
Proof. intros; unfold wrap; apply Z.mod_pos_bound, pow2_pos; auto. Qed.
Lemma wrap_small n v : 0 <= v < 2 ^ n -> wrap n v = v.
Proof. intros; unfold wrap; apply Z.mod_small; auto. Qed.

Lemma pow2_split n : 0 < n -> 2 ^ n = 2 * 2 ^ (n - 1).
Proof.
  intros. replace n with (1 + (n - 1)) at 1 by lia.
  rewrite Z.pow_add_r by lia. reflexivity.
Qed.
Lemma swrap_range n v : 0 < n -> - 2 ^ (n - 1) <= swrap n v < 2 ^ (n - 1).
Proof.
  intros; unfold swrap.
  pose proof (Z.mod_pos_bound (v + 2 ^ (n - 1)) (2 ^ n) (pow2_pos n ltac:(lia))).
  pose proof (pow2_split n H). lia.
Qed.
Lemma swrap_small n v : 0 < n -> - 2 ^ (n - 1) <= v < 2 ^ (n - 1) -> swrap n v = v.
Proof.
  intros; unfold swrap. pose proof (pow2_split n H).
  rewrite Z.mod_small; lia.
Qed.
Lemma swrap_mod n v : 0 < n -> (swrap n v) mod 2 ^ n = v mod 2 ^ n.
Proof.
  intros; unfold swrap. rewrite Zminus_mod_idemp_l. f_equal; lia.
Qed.

(** Outcomes of modelled C functions. *)
Inductive res (A : Type) : Type :=
| Ok (a : A)        (* normal result *)
| Err               (* the assembler reports an error *)
| UB.               (* the C code has undefined behaviour / hangs / overflows a buffer *)
Arguments Ok {A} a. Arguments Err {A}. Arguments UB {A}.
Definition bindr {A B} (r : res A) (f : A -> res B) : res B :=
  match r with Ok a => f a | Err => Err | UB => UB end.
