(** C14: the SMBus packet error code. *)
From Coq Require Import List NArith Lia Bool Arith.
From Verif Require Import Base Crc8_Model Crc8_Spec Crc8_Proofs.
Import ListNotations.

(** The code of a block of 1 to 255 bytes is the remainder of (address byte, data) times x^8 modulo
    x^8+x^2+x+1, and that remainder is unique. *)
Theorem C14_is_remainder : forall addr d, byte_ok addr -> bytes_ok d -> 0 < length d < 256 ->
  forall r, is_crc_remainder (be_value (addr :: d)) r <-> r = crc8 addr (Some d) (length d).
Proof.
  intros. pose proof (crc8_is_remainder addr d H H0 H1). split; intros.
  - eapply remainder_unique; eauto.
  - now subst.
Qed.
Print Assumptions C14_is_remainder.

(** The published check value: the code of the ASCII string "123456789" is 0xf4. *)
Example C14_is_remainder_ex :
  crc8 0x31 (Some [0x32;0x33;0x34;0x35;0x36;0x37;0x38;0x39]%N) 8 = 0xf4%N.
Proof. reflexivity. Qed.

(** Computed in pieces or at once. *)
Theorem C14_incremental : forall c a b, length a + length b < 256 ->
  crc8_update (crc8_update c a (length a)) b (length b) = crc8_update c (a ++ b) (length (a ++ b)).
Proof. exact crc8_update_app. Qed.
Print Assumptions C14_incremental.

(** Any change confined to one byte, wherever it is, changes the code; so does a change of address. *)
Theorem C14_detects_one_byte : forall addr pre x y post,
  byte_ok addr -> bytes_ok pre -> byte_ok x -> byte_ok y -> bytes_ok post ->
  length (pre ++ x :: post) < 256 -> x <> y ->
  crc8 addr (Some (pre ++ x :: post)) (length (pre ++ x :: post)) <>
  crc8 addr (Some (pre ++ y :: post)) (length (pre ++ y :: post)).
Proof.
  intros. rewrite !crc8_as_loop by (rewrite app_length in *; simpl in *; lia).
  apply (crc8_one_byte 0 (addr :: pre)); auto; [reflexivity | constructor; auto].
Qed.
Print Assumptions C14_detects_one_byte.

Theorem C14_detects_address : forall addr addr' d,
  byte_ok addr -> byte_ok addr' -> bytes_ok d -> 0 < length d < 256 -> addr <> addr' ->
  crc8 addr (Some d) (length d) <> crc8 addr' (Some d) (length d).
Proof.
  intros. rewrite !crc8_as_loop by auto.
  apply (crc8_one_byte 0 []); auto; [reflexivity | constructor].
Qed.
Print Assumptions C14_detects_address.

(** Any change confined to eight consecutive bits of two adjacent bytes changes the code. *)
Theorem C14_detects_burst : forall addr pre x y x' y' post,
  byte_ok addr -> bytes_ok pre -> byte_ok x -> byte_ok y -> byte_ok x' -> byte_ok y' -> bytes_ok post ->
  length (pre ++ x :: y :: post) < 256 -> burst8 x y x' y' ->
  crc8 addr (Some (pre ++ x :: y :: post)) (length (pre ++ x :: y :: post)) <>
  crc8 addr (Some (pre ++ x' :: y' :: post)) (length (pre ++ x' :: y' :: post)).
Proof.
  intros. rewrite !crc8_as_loop by (rewrite app_length in *; simpl in *; lia).
  apply (crc8_burst 0 (addr :: pre)); auto; [reflexivity | constructor; auto].
Qed.
Print Assumptions C14_detects_burst.

Example C14_detects_burst_ex : burst8 0x0f 0xf0 0x00 0x00.
Proof. exists 0xff%N, 4%N. repeat split; try reflexivity; discriminate. Qed.

(** The length parameter is a uint8_t: for a block of 256 bytes the code is 0 whatever the data, so
    single-byte damage goes unnoticed. *)
Theorem C14_block_of_256_refuted : exists addr pre x y post,
  byte_ok addr /\ bytes_ok pre /\ byte_ok x /\ byte_ok y /\ bytes_ok post /\ x <> y /\
  length (pre ++ x :: post) = 256 /\
  crc8 addr (Some (pre ++ x :: post)) (length (pre ++ x :: post)) =
  crc8 addr (Some (pre ++ y :: post)) (length (pre ++ y :: post)).
Proof.
  exists 0x20%N, [], 1%N, 2%N, (repeat 0%N 255).
  assert (bytes_ok (repeat 0%N 255)) by (apply Forall_forall; intros z Hz; apply repeat_spec in Hz; subst; reflexivity).
  repeat (split; [first [assumption | reflexivity | discriminate | constructor]|]). reflexivity.
Qed.
Print Assumptions C14_block_of_256_refuted.
