(** C09 and C10: byte-array counters and bit-array operations of common_math.c.

    Specification vocabulary: [be_value] (Base.v) is the number a byte array denotes, most
    significant byte first; [arr_bit] (ByteMath_Spec.v) is the i-th bit of an array. *)
From Coq Require Import List NArith ZArith Lia Bool Arith.
From Verif Require Import Base ByteMath_Model ByteMath_Spec ByteMath_Proofs ByteMath_Shift_Proofs.
Import ListNotations.

(** C09.  Incrementing is +1 on the denoted number; at the all-ones value it wraps to zero if allowed
    and otherwise reports the boundary and leaves the array unchanged. *)
Theorem C09_increment : forall l roll, l <> [] -> bytes_ok l ->
  ((be_value l + 1 < 256 ^ N.of_nat (length l))%N ->
     exists l', increment_byte_array l roll = (l', CM_OK) /\ length l' = length l /\ bytes_ok l' /\
       be_value l' = (be_value l + 1)%N) /\
  ((be_value l + 1 = 256 ^ N.of_nat (length l))%N ->
     increment_byte_array l roll =
       if roll then (repeat 0%N (length l), CM_OK) else (l, CM_BOUNDARY_REACHED)).
Proof. intros; split; intros; [now apply increment_correct | now apply increment_boundary]. Qed.
Print Assumptions C09_increment.

Example C09_increment_ex : increment_byte_array [1;255;255]%N false = ([2;0;0]%N, CM_OK).
Proof. reflexivity. Qed.
Example C09_increment_ex_boundary : increment_byte_array [255;255]%N false = ([255;255]%N, CM_BOUNDARY_REACHED).
Proof. reflexivity. Qed.

Theorem C09_decrement : forall l roll, l <> [] -> bytes_ok l ->
  ((0 < be_value l)%N ->
     exists l', decrement_byte_array l roll = (l', CM_OK) /\ length l' = length l /\ bytes_ok l' /\
       be_value l' = (be_value l - 1)%N) /\
  (be_value l = 0%N ->
     decrement_byte_array l roll =
       if roll then (repeat 255%N (length l), CM_OK) else (l, CM_BOUNDARY_REACHED)).
Proof. intros; split; intros; [now apply decrement_correct | now apply decrement_boundary]. Qed.
Print Assumptions C09_decrement.

Example C09_decrement_ex : decrement_byte_array [1;0;0]%N false = ([0;255;255]%N, CM_OK).
Proof. reflexivity. Qed.

(** Comparison orders two non-empty arrays, of any two lengths, as the numbers they denote. *)
Theorem C09_compare : forall l1 l2, l1 <> [] -> l2 <> [] -> bytes_ok l1 -> bytes_ok l2 ->
  Z.sgn (compare_array l1 l2) = Z.sgn (Z.of_N (be_value l1) - Z.of_N (be_value l2)).
Proof. exact compare_array_correct. Qed.
Print Assumptions C09_compare.

Example C09_compare_ex : Z.sgn (compare_array [0;0;1;2] [1;3])%N = (-1)%Z.
Proof. reflexivity. Qed.

(** An empty array is reported smaller than a non-empty one even when both denote zero: the claim
    does not extend to empty arrays. *)
Theorem C09_compare_empty_refuted : exists l1 l2, bytes_ok l1 /\ bytes_ok l2 /\
  be_value l1 = be_value l2 /\ compare_array l1 l2 = (-1)%Z.
Proof. exists [], [0%N]. repeat constructor. Qed.
Print Assumptions C09_compare_empty_refuted.

Theorem C09_is_zero : forall l, l <> [] -> is_array_zero l = true <-> be_value l = 0%N.
Proof. exact is_array_zero_correct. Qed.
Print Assumptions C09_is_zero.

(** C10.  Setting, clearing and testing a bit. *)
Theorem C10_set_bit : forall l bit, bit < 8 * length l ->
  exists l', set_bit_in_array l bit = (l', CM_OK) /\ length l' = length l /\
    forall i, arr_bit l' i = if i =? bit then true else arr_bit l i.
Proof. exact set_bit_correct. Qed.
Print Assumptions C10_set_bit.

Theorem C10_clear_bit : forall l bit, bit < 8 * length l ->
  exists l', clear_bit_in_array l bit = (l', CM_OK) /\ length l' = length l /\
    forall i, arr_bit l' i = if i =? bit then false else arr_bit l i.
Proof. exact clear_bit_correct. Qed.
Print Assumptions C10_clear_bit.

Theorem C10_test_bit : forall l bit, bit < 8 * length l ->
  is_bit_set_in_array l bit = Some (arr_bit l bit).
Proof. exact is_bit_set_correct. Qed.
Print Assumptions C10_test_bit.

Theorem C10_out_of_range : forall l bit, 8 * length l <= bit ->
  set_bit_in_array l bit = (l, CM_OUT_OF_RANGE) /\
  clear_bit_in_array l bit = (l, CM_OUT_OF_RANGE) /\
  is_bit_set_in_array l bit = None.
Proof. intros; repeat split; [now apply set_bit_out | now apply clear_bit_out | now apply is_bit_out]. Qed.
Print Assumptions C10_out_of_range.

Example C10_set_bit_ex : set_bit_in_array [0;1]%N 9 = ([0;3]%N, CM_OK).
Proof. reflexivity. Qed.

(** Counts. *)
Theorem C10_population_count : forall l,
  get_num_bits_set_in_array l = count_bits (arr_bit l) (8 * length l).
Proof. exact num_bits_in_array_correct. Qed.
Print Assumptions C10_population_count.

Theorem C10_count_before_index : forall byte index, byte_ok byte ->
  get_num_bits_set_before_index byte (N.of_nat index) =
  count_bits (fun i => N.testbit byte (N.of_nat i)) index.
Proof. exact count_set_bits_before. Qed.
Print Assumptions C10_count_before_index.

Theorem C10_leading_run : forall l,
  is_leading_run (arr_bit l) (8 * length l) (get_num_contiguous_bits_set_in_array l).
Proof. exact contiguous_array. Qed.
Print Assumptions C10_leading_run.

Example C10_counts_ex : get_num_bits_set_in_array [255;7;9]%N = 13 /\
  get_num_contiguous_bits_set_in_array [255;7;9]%N = 11.
Proof. split; reflexivity. Qed.

(** Setting the next bit sets exactly the first clear bit, and reports an error when there is none. *)
Theorem C10_set_next_bit : forall l k, is_leading_run (arr_bit l) (8 * length l) k ->
  (k < 8 * length l ->
    exists l', set_next_bit_in_array l = (l', CM_OK) /\ length l' = length l /\
      forall i, arr_bit l' i = if i =? k then true else arr_bit l i) /\
  (k = 8 * length l -> set_next_bit_in_array l = (l, CM_OUT_OF_RANGE)).
Proof.
  intros l k R. rewrite (leading_run_unique _ _ _ _ R (contiguous_array l)).
  exact (set_next_bit_correct l).
Qed.
Print Assumptions C10_set_next_bit.

(** Setting bits until the leading run has the wanted parity always terminates, never clears a bit,
    and on success the parity is the wanted one (odd for [par = 0], even for [par = 1]). *)
Theorem C10_set_to_parity : forall l par,
  exists l' st, set_contiguous_bits_to_count l par = Some (l', st) /\ length l' = length l /\
    (forall i, arr_bit l i = true -> arr_bit l' i = true) /\
    (st = CM_OK -> forall k, is_leading_run (arr_bit l') (8 * length l') k -> k mod 2 <> par) /\
    (st <> CM_OK -> st = CM_OUT_OF_RANGE /\ is_leading_run (arr_bit l') (8 * length l') (8 * length l)).
Proof.
  intros l par. destruct (set_contiguous_terminates (S (8 * length l)) l par) as (l' & st & E & L & M & O & F).
  - lia.
  - exists l', st. split; [exact E|]. split; [exact L|]. split; [exact M|]. split.
    + intros S k K. rewrite (leading_run_unique _ _ _ _ K (contiguous_array l')). auto.
    + intros S. destruct (F S) as [F1 F2]. split; [exact F1|]. rewrite <- F2. apply contiguous_array.
Qed.
Print Assumptions C10_set_to_parity.

Example C10_set_to_parity_ex : set_contiguous_bits_to_count [1;0]%N 1 = Some ([3;0]%N, CM_OK).
Proof. reflexivity. Qed.

(** Shifts are division and multiplication by a power of two of the denoted number. *)
Theorem C10_right_shift : forall l n, bytes_ok l ->
  length (right_shift_array l n) = length l /\
  be_value (right_shift_array l n) = (be_value l / 2 ^ N.of_nat n)%N.
Proof. intros; split; [apply right_shift_length | now apply right_shift_value]. Qed.
Print Assumptions C10_right_shift.

Theorem C10_left_shift : forall l n, bytes_ok l ->
  length (left_shift_array l n) = length l /\
  be_value (left_shift_array l n) = ((be_value l * 2 ^ N.of_nat n) mod 256 ^ N.of_nat (length l))%N.
Proof. intros; split; [apply left_shift_length | now apply left_shift_value]. Qed.
Print Assumptions C10_left_shift.

Example C10_shift_ex : right_shift_array [0x12;0x34;0x56]%N 12 = [0;1;0x23]%N /\
  left_shift_array [0x12;0x34;0x56]%N 12 = [0x45;0x60;0]%N.
Proof. split; reflexivity. Qed.

(** Byte swapping reads the little-endian bytes of the value as a big-endian number. *)
Theorem C10_byte_swap : forall d,
  swap16 d = be_value (le16 d) /\ swap32 d = be_value (le32 d) /\
  swap64 d = be_value (le32 d ++ le32 (d / 2 ^ 32)).
Proof. intros; split; [apply swap16_value | split; [apply swap32_value | apply swap64_value]]. Qed.
Print Assumptions C10_byte_swap.

Example C10_byte_swap_ex : swap32 0x12345678 = 0x78563412%N /\ swap64 0x0102030405060708 = 0x0807060504030201%N.
Proof. split; reflexivity. Qed.
